(** Model of the project's own test oracles and generators. The values of [rand()] are
    arguments. The templates are modelled over the member functions they call. *)
From Verif Require Import Base M_Broadword M_BitVector M_RsBitVector M_Darray M_EliasFano M_Bp M_Cartesian M_Topk.

(** BOOST_REQUIRE, BOOST_REQUIRE_EQUAL and MY_REQUIRE_EQUAL (test_common.hpp:10-11): [Ok false] is
    a failed test. *)
Notation "'require!' c ; k" := (if (c : bool) then k else Ok false)
  (at level 200, c at level 100, k at level 200, right associativity).

(** two checks in a row (e.g. test_rank_select_common.hpp:86-90) *)
Definition then_ (a b : res bool) : res bool := do ok <- a; require! ok; b.

(** ** test_rank_select_common.hpp *)

(** test_rank_select_common.hpp:9-12 *)
Fixpoint equal_bits_loop (get : Z -> res bool) (v : list bool) (i : Z) : res bool :=
  match v with
  | [] => Ok true
  | x :: v =>
      do y <- get i;
      require! (eqb x y);
      equal_bits_loop get v (i + 1)
  end.
(** test_rank_select_common.hpp:6-13 *)
Definition test_equal_bits (v : list bool) (size : Z) (get : Z -> res bool) : res bool :=
  require! (zlen v =? size);
  equal_bits_loop get v 0.

(** test_rank_select_common.hpp:21-34 ([one = false]) and 55-70 ([one = true]); [last] is last_zero or last_one *)
Fixpoint rank_select_loop (one : bool) (rank select predecessor : Z -> res Z) (v : list bool) (i cur_rank last : Z)
  : res bool :=
  match v with
  | [] => Ok true
  | x :: v =>
      do r <- rank i;
      require! (cur_rank =? r);
      do s <- (if eqb x one then select cur_rank else Ok i);
      require! (i =? s);
      let last := if eqb x one then i else last in
      let cur_rank := if eqb x one then cur_rank + 1 else cur_rank in
      if last =? 2 ^ 64 - 1 then rank_select_loop one rank select predecessor v (i + 1) cur_rank last
      else
        do p <- predecessor i;
        require! (last =? p);
        rank_select_loop one rank select predecessor v (i + 1) cur_rank last
  end.
(** test_rank_select_common.hpp:37-46 and 73-82; the elements still to come, last first *)
Fixpoint successor_loop (one : bool) (successor : Z -> res Z) (v : list bool) (i last : Z) : res bool :=
  match v with
  | [] => Ok true
  | x :: v =>
      let last := if eqb x one then i else last in
      if last =? 2 ^ 64 - 1 then successor_loop one successor v (i - 1) last
      else
        do s <- successor i;
        require! (last =? s);
        successor_loop one successor v (i - 1) last
  end.
(** test_rank_select_common.hpp:16-47 and 50-83 *)
Definition test_rank_select_of (one : bool) (rank select predecessor successor : Z -> res Z) (v : list bool) : res bool :=
  then_ (rank_select_loop one rank select predecessor v 0 0 (2 ^ 64 - 1))
        (successor_loop one successor (rev v) (zlen v - 1) (2 ^ 64 - 1)).

(** test_rank_select_common.hpp:86-90 on an rs_bit_vector *)
Definition test_rank_select (v : list bool) (rs : rs_bit_vector) : res bool :=
  then_ (test_rank_select_of false (rs_rank0 rs) (rs_select0 rs) (predecessor0 (rs_bv rs)) (successor0 (rs_bv rs)) v)
        (test_rank_select_of true (rs_rank rs) (rs_select rs) (predecessor1 (rs_bv rs)) (successor1 (rs_bv rs)) v).

(** test_rank_select_common.hpp:95-105, [n] iterations left *)
Fixpoint delta_loop (ef : elias_fano) (n : nat) (i : Z) : res bool :=
  match n with
  | O => Ok true
  | S n =>
      do x <- ef_select ef i;
      do y <- (if i =? 0 then Ok 0 else ef_select ef (i - 1));
      do d <- ef_delta ef i;
      require! (sub64 x y =? d);
      delta_loop ef n (i + 1)
  end.
(** test_rank_select_common.hpp:93-106 *)
Definition test_delta (ef : elias_fano) : res bool := delta_loop ef (Z.to_nat (ef_num_ones ef)) 0.

(** test_rank_select_common.hpp:114-122 *)
Fixpoint select_enum_loop (ef : elias_fano) (v : list bool) (i : Z) (it : select_enum) : res bool :=
  match v with
  | [] => Ok true
  | true :: v =>
      do (x, it) <- se_next ef it;
      require! (i =? x);
      select_enum_loop ef v (i + 1) it
  | false :: v => select_enum_loop ef v (i + 1) it
  end.
(** test_rank_select_common.hpp:109-123 *)
Definition test_select_enumeration (v : list bool) (ef : elias_fano) : res bool :=
  do it <- se_new ef 0;
  select_enum_loop ef v 0 it.

(** ** test_darray.cpp:19-29; the two counters at the end *)
Fixpoint darray_test_loop (bv : bit_vector) (d1 d0 : darray) (v : list bool) (i cur_rank cur_rank0 : Z)
  : res (option (Z * Z)) :=
  match v with
  | [] => Ok (Some (cur_rank, cur_rank0))
  | x :: v =>
      do s <- (if x then darray1_select d1 bv cur_rank else darray0_select d0 bv cur_rank0);
      if i =? s then
        if x then darray_test_loop bv d1 d0 v (i + 1) (cur_rank + 1) cur_rank0
        else darray_test_loop bv d1 d0 v (i + 1) cur_rank (cur_rank0 + 1)
      else Ok None
  end.
(** test_darray.cpp:19-33, on any structures *)
Definition test_darray_of (bv : bit_vector) (d1 d0 : darray) (v : list bool) : res bool :=
  do r <- darray_test_loop bv d1 d0 v 0 0 0;
  match r with
  | None => Ok false
  | Some (cur_rank, cur_rank0) =>
      require! (cur_rank =? da_positions d1);
      require! (cur_rank0 =? da_positions d0);
      Ok true
  end.
(** test_darray.cpp:11-33 *)
Definition test_darray (v : list bool) : res bool :=
  let bv := bv_range v in
  do d1 <- darray_build false bv;
  do d0 <- darray_build true bv;
  test_darray_of bv d1 d0 v.

(** ** test_bp_vector.cpp *)

(** test_bp_vector.cpp:19-33: the stack with its top first and the arrays open, close and enclose;
    [None] if a closing parenthesis finds the stack empty *)
Fixpoint stack_loop (v : list bool) (i : Z) (stack open close enclose : list Z)
  : res (option (list Z * list Z * list Z * list Z)) :=
  match v with
  | [] => Ok (Some (stack, open, close, enclose))
  | true :: v =>
      do enclose <- (match stack with [] => Ok enclose | top :: _ => wr enclose i top end);
      stack_loop v (i + 1) (i :: stack) open close enclose
  | false :: v =>
      match stack with
      | [] => Ok None
      | opening :: stack =>
          do close <- wr close opening i;
          do open <- wr open i opening;
          stack_loop v (i + 1) stack open close enclose
      end
  end.
(** test_bp_vector.cpp:36-48 *)
Fixpoint parentheses_loop (sp : shift_policy) (bp : bp_vector) (v : list bool) (i : Z) (open close enc : list Z) : res bool :=
  match v with
  | [] => Ok true
  | true :: v =>
      do e <- rd enc i;
      do x <- (if e =? 2 ^ 64 - 1 then Ok e else enclose sp bp i);
      require! (e =? x);
      do c <- rd close i;
      do y <- find_close sp bp i;
      require! (c =? y);
      parentheses_loop sp bp v (i + 1) open close enc
  | false :: v =>
      do o <- rd open i;
      do y <- find_open sp bp i;
      require! (o =? y);
      parentheses_loop sp bp v (i + 1) open close enc
  end.
(** test_bp_vector.cpp:12-49. The loop at 36 runs to bitmap.size(), which is v.size(). *)
Definition test_parentheses (sp : shift_policy) (v : list bool) (bp : bp_vector) : res bool :=
  let zero := repeat 0 (length v) in
  do r <- stack_loop v 0 [] zero zero (repeat (2 ^ 64 - 1) (length v));
  match r with
  | None => Ok false
  | Some (stack, open, close, enc) =>
      require! (zlen stack =? 0);
      parentheses_loop sp bp v 0 open close enc
  end.

(** ** test_bp_vector_rmq.cpp *)

(** test_bp_vector_rmq.cpp:42-58, [n] iterations left *)
Fixpoint bp_rmq_loop (cs : bool) (bp : bp_vector) (n : nat) (a b : Z) (it : enumerator) (cur_exc min_exc min_idx : Z) : res bool :=
  match n with
  | O => Ok true
  | S n =>
      do (x, it) <- enum_next (rs_bv (bp_rs bp)) it;
      do cur_exc <- int32 (if (x : bool) then cur_exc + 1 else cur_exc - 1);
      do e <- (if cur_exc <? min_exc then excess bp b else Ok cur_exc);
      assert! (cur_exc =? e);
      let min_idx := if cur_exc <? min_exc then b else min_idx in
      let min_exc := if cur_exc <? min_exc then cur_exc else min_exc in
      do (p, _) <- excess_rmq cs bp a b;
      require! (min_idx =? p);
      bp_rmq_loop cs bp n a (b + 1) it cur_exc min_exc min_idx
  end.
(** test_bp_vector_rmq.cpp:31-59, the positions still to test *)
Fixpoint bp_rmq_tests (cs : bool) (size : Z) (bp : bp_vector) (tests : list Z) : res bool :=
  match tests with
  | [] => Ok true
  | a :: tests =>
      if size <? a then bp_rmq_tests cs size bp tests
      else
        do cur_exc <- excess bp a;
        do (p, _) <- excess_rmq cs bp a a;
        require! (a =? p);
        do ok <- bp_rmq_loop cs bp (Z.to_nat (size - (a + 1))) a (a + 1) (enum_new a) cur_exc cur_exc a;
        require! ok;
        bp_rmq_tests cs size bp tests
  end.
(** test_bp_vector_rmq.cpp:13-60; [rands] are the values of rand() *)
Definition test_bp_rmq (cs : bool) (rands : list Z) (v : list bool) (bp : bp_vector) : res bool :=
  if zlen v =? 0 then Ok true
  else bp_rmq_tests cs (zlen v) bp ([1; 8; 64; 8192; zlen v] ++ map (fun r => u64 r mod zlen v) rands).

(** ** test_cartesian_tree.cpp *)

(** test_cartesian_tree.cpp:43-58, [n] iterations left *)
Fixpoint ct_rmq_loop (cs : bool) {T} (comp : T -> T -> bool) (v : list T) (tree : bp_vector) (n : nat) (a b min_idx : Z) (cur_min : T)
  : res bool :=
  match n with
  | O => Ok true
  | S n =>
      do x <- rd v b;
      let min_idx := if comp x cur_min then b else min_idx in
      let cur_min := if comp x cur_min then x else cur_min in
      do found <- ct_rmq cs tree a b;
      require! (min_idx =? found);
      ct_rmq_loop cs comp v tree n a (b + 1) min_idx cur_min
  end.
(** test_cartesian_tree.cpp:34-59 *)
Fixpoint ct_rmq_tests (cs : bool) {T} (comp : T -> T -> bool) (v : list T) (tree : bp_vector) (tests : list Z) : res bool :=
  match tests with
  | [] => Ok true
  | a :: tests =>
      if zlen v <? a then ct_rmq_tests cs comp v tree tests
      else
        do cur_min <- rd v a;
        do found <- ct_rmq cs tree a a;
        require! (a =? found);
        do ok <- ct_rmq_loop cs comp v tree (Z.to_nat (zlen v - (a + 1))) a (a + 1) a cur_min;
        require! ok;
        ct_rmq_tests cs comp v tree tests
  end.
(** std::min_element: the first element before which no other one is; [i] is the index of the next element (test_cartesian_tree.cpp:27) *)
Fixpoint min_element {T} (comp : T -> T -> bool) (v : list T) (i best : Z) (x : T) : Z :=
  match v with
  | [] => best
  | y :: v => if comp y x then min_element comp v (i + 1) i y else min_element comp v (i + 1) best x
  end.
(** test_cartesian_tree.cpp:15-60; [rands] are the values of rand() *)
Definition test_ct_rmq (cs : bool) {T} (comp : T -> T -> bool) (rands : list Z) (v : list T) (tree : bp_vector) : res bool :=
  require! (zlen v =? ct_size tree);
  match v with
  | [] => Ok true
  | x :: rest =>
      ct_rmq_tests cs comp v tree
        ([0; 1; min_element comp rest 1 0 x] ++ map (fun r => u64 r mod zlen v) rands)
  end.

(** ** test_topk_vector.cpp *)

(** test_topk_vector.cpp:17-28 *)
Definition entry_before {T} (lt eq : T -> T -> bool) (a b : T * Z) : bool :=
  lt (fst b) (fst a) || (eq (fst a) (fst b) && (snd a <? snd b)).
(** std::sort, here by insertion; no two entries compare equal, so the result is determined (test_topk_vector.cpp:59) *)
Fixpoint insert_entry {T} (before : T * Z -> T * Z -> bool) (e : T * Z) (l : list (T * Z)) : list (T * Z) :=
  match l with
  | [] => [e]
  | f :: l => if before e f then e :: f :: l else f :: insert_entry before e l
  end.
(** test_topk_vector.cpp:59 *)
Definition sort_entries {T} (before : T * Z -> T * Z -> bool) (l : list (T * Z)) : list (T * Z) :=
  fold_right (insert_entry before) [] l.
(** test_topk_vector.cpp:56-58, [n] iterations left *)
Fixpoint expected_loop {T} (v : list T) (n : nat) (i : Z) : res (list (T * Z)) :=
  match n with
  | O => Ok []
  | S n => do x <- rd v i; do l <- expected_loop v n (i + 1); Ok ((x, i) :: l)
  end.
(** BOOST_REQUIRE_EQUAL_COLLECTIONS; an entry that was never set equals no expected one (test_topk_vector.cpp:64) *)
Fixpoint same_entries {T} (eq : T -> T -> bool) (xs : list (T * Z)) (ys : list (option (T * Z))) : bool :=
  match xs, ys with
  | [], [] => true
  | x :: xs, Some y :: ys => eq (fst x) (fst y) && (snd x =? snd y) && same_entries eq xs ys
  | _, _ => false
  end.
(** test_topk_vector.cpp:51-66 with the pairs of 41-45, [k] is 10 *)
Fixpoint topk_tests {T} (cs : bool) (lt eq : T -> T -> bool) (h : heap_ops (queue_element T)) (v : list T) (tk : topk_vector T)
  (k : Z) (rands : list (Z * Z)) : res bool :=
  match rands with
  | [] => Ok true
  | (r1, r2) :: rands =>
      let a := u64 r1 mod zlen v in
      let b := a + u64 r2 mod (zlen v - a) in
      do all <- expected_loop v (Z.to_nat (b + 1 - a)) a;
      let sorted := sort_entries (entry_before lt eq) all in
      let expected := firstn (Z.to_nat (Z.min (zlen sorted) k)) sorted in
      do found <- topk cs h tk a b k;
      require! (same_entries eq expected found);
      topk_tests cs lt eq h v tk k rands
  end.
(** test_topk_vector.cpp:31-67 *)
Definition test_topk {T} (cs : bool) (lt eq : T -> T -> bool) (h : heap_ops (queue_element T)) (v : list T) (tk : topk_vector T)
  (rands : list (Z * Z)) : res bool :=
  require! (zlen v =? tk_size tk);
  if zlen v =? 0 then Ok true else topk_tests cs lt eq h v tk 10 rands.

(** ** the lists *)

(** test_gamma_vector.cpp:26-28, test_gamma_bit_vector.cpp:35-37, test_elias_fano_compressed_list.cpp:26-28 *)
Fixpoint list_loop (get : Z -> res Z) (v : list Z) (i : Z) : res bool :=
  match v with
  | [] => Ok true
  | x :: v => do y <- get i; require! (x =? y); list_loop get v (i + 1)
  end.
(** test_gamma_vector.cpp:25-28, test_gamma_bit_vector.cpp:34-37, test_elias_fano_compressed_list.cpp:25-28 *)
Definition test_list (size : Z) (get : Z -> res Z) (v : list Z) : res bool :=
  require! (zlen v =? size); list_loop get v 0.

(** ** test_bit_vector.cpp *)

(** pushing every element, test_bit_vector.cpp:19-21 *)
Fixpoint push_each (gr : growth) (b : builder) (v : list bool) : res builder :=
  match v with
  | [] => Ok b
  | x :: v => do b <- push_back gr b x; push_each gr b v
  end.
(** test_bit_vector.cpp:17-25 *)
Definition test_push_back (gr : growth) (v : list bool) : res bool :=
  do b <- push_each gr (mk_builder [] 0 0 0 None) v;
  do bitmap <- bv_of_builder b;
  test_equal_bits v (bv_size bitmap) (bv_get bitmap).
(** test_bit_vector.cpp:29-31 *)
Fixpoint set_each (b : builder) (v : list bool) (i : Z) : res builder :=
  match v with
  | [] => Ok b
  | x :: v => do b <- bset b i x; set_each b v (i + 1)
  end.
(** test_bit_vector.cpp:27-39 *)
Definition test_set (gr : growth) (v : list bool) : res bool :=
  do b <- new_builder (zlen v) false;
  do b <- set_each b v 0;
  do b <- push_back gr b false;
  do b <- push_back gr b true;
  do bitmap <- bv_of_builder b;
  test_equal_bits (v ++ [false; true]) (bv_size bitmap) (bv_get bitmap).
(** test_bit_vector.cpp:190-203 *)
Definition test_bvb_reverse (gr : growth) (v : list bool) : res bool :=
  do b <- push_each gr (mk_builder [] 0 0 0 None) v;
  do b <- reverse b;
  do bitmap <- bv_of_builder b;
  test_equal_bits (rev v) (bv_size bitmap) (bv_get bitmap).

(** test_bit_vector.cpp:44-47 *)
Fixpoint append_ints (gr : growth) (b : builder) (ints : list Z) : res builder :=
  match ints with
  | [] => Ok b
  | i :: ints =>
      do m <- msb i;
      do b <- append_bits gr b i (m + 1);
      append_ints gr b ints
  end.
(** test_bit_vector.cpp:50-54 *)
Fixpoint get_ints (sp : shift_policy) (bitmap : bit_vector) (pos : Z) (ints : list Z) : res bool :=
  match ints with
  | [] => Ok true
  | i :: ints =>
      do m <- msb i;
      do x <- get_bits sp bitmap pos (m + 1);
      require! (i =? x);
      get_ints sp bitmap (pos + (m + 1)) ints
  end.
(** test_bit_vector.cpp:42-55 *)
Definition test_ints (gr : growth) (sp : shift_policy) (ints : list Z) : res bool :=
  do b <- append_ints gr (mk_builder [] 0 0 0 None) ints;
  do bitmap <- bv_of_builder b;
  get_ints sp bitmap 0 ints.
(** the integers of test_bit_vector.cpp:41 *)
Definition test_ints_values : list Z :=
  [2 ^ 64 - 1; 2 ^ 63; 1; 1; 1; 3; 5; 7; 4095; 3855; 1; 16777215; 1193046; 2 ^ 63; 2 ^ 64 - 1].

(** test_bit_vector.cpp:60-62, the last element of positions *)
Fixpoint ints_size (pos : Z) (ints : list Z) : res Z :=
  match ints with
  | [] => Ok pos
  | i :: ints => do m <- msb i; ints_size (pos + m + 1) ints
  end.
(** test_bit_vector.cpp:66-70; [len] is positions[i + 1] - positions[i] *)
Fixpoint set_ints (b : builder) (pos : Z) (ints : list Z) : res builder :=
  match ints with
  | [] => Ok b
  | i :: ints =>
      do m <- msb i;
      do b <- set_bits b pos i (m + 1);
      set_ints b (pos + (m + 1)) ints
  end.
(** test_bit_vector.cpp:57-78; the loop at 73-77 makes the calls of [get_ints] *)
Definition test_set_ints (sp : shift_policy) (ints : list Z) : res bool :=
  do n <- ints_size 0 ints;
  do b <- new_builder n false;
  do b <- set_ints b 0 ints;
  do bitmap <- bv_of_builder b;
  get_ints sp bitmap 0 ints.

(** test_bit_vector.cpp:91-99, test_gamma_vector.cpp:52-61 and test_gamma_bit_vector.cpp:52-61: one value of rand() per
    iteration. Without any left the loop is cut short. *)
Fixpoint reposition_loop {A E} (eq : A -> A -> bool) (new : Z -> res E) (next : E -> res (A * E)) (v : list A) (e : E) (pos : Z)
  (rands : list Z) : res bool :=
  match rands with
  | [] => Ok true
  | r :: rands =>
      if pos <? zlen v then
        do (x, e) <- next e;
        do y <- rd v pos;
        require! (eq x y);
        let pos := pos + 1 in
        let pos := pos + u64 r mod (sub64 (zlen v) pos + 1) in
        do e <- new pos;
        reposition_loop eq new next v e pos rands
      else Ok true
  end.
(** test_bit_vector.cpp:81-100 *)
Definition test_bit_enumerator (v : list bool) (rands : list Z) : res bool :=
  let bitmap := bv_range v in
  reposition_loop eqb (fun pos => Ok (enum_new pos)) (enum_next bitmap) v (enum_new 0) 0 rands.

(** test_bit_vector.cpp:116-121 *)
Fixpoint ones_loop (bitmap : bit_vector) (n : nat) (i : Z) : res (list Z) :=
  match n with
  | O => Ok []
  | S n =>
      do x <- bv_get bitmap i;
      do l <- ones_loop bitmap n (i + 1);
      Ok (if (x : bool) then i :: l else l)
  end.
(** test_bit_vector.cpp:126-130, the elements of ones still to come *)
Fixpoint unary_next_test (ws : list Z) (e : unary_enum) (ones : list Z) : res bool :=
  match ones with
  | [] => Ok true
  | o :: ones =>
      do (pos, e) <- unary_next ws e;
      require! (o =? pos);
      unary_next_test ws e ones
  end.
(** test_bit_vector.cpp:137-143, the elements ones[r + k] still to come *)
Fixpoint unary_skips (ws : list Z) (e : unary_enum) (k : Z) (ones : list Z) : res bool :=
  match ones with
  | [] => Ok true
  | o :: ones =>
      do ee <- unary_skip ws e k;
      do (pos, _) <- unary_next ws ee;
      require! (o =? pos);
      unary_skips ws e (k + 1) ones
  end.
(** test_bit_vector.cpp:136-145 *)
Fixpoint unary_skip_test (ws : list Z) (e : unary_enum) (ones : list Z) : res bool :=
  match ones with
  | [] => Ok true
  | _ :: rest =>
      do ok <- unary_skips ws e 0 (firstn 256 ones);
      require! ok;
      do (_, e) <- unary_next ws e;
      unary_skip_test ws e rest
  end.
(** test_bit_vector.cpp:152-161; [o] is ones[r] *)
Fixpoint unary_skips_no_move (ws : list Z) (e : unary_enum) (o k : Z) (ones : list Z) : res bool :=
  match ones with
  | [] => Ok true
  | o' :: ones =>
      do pos_skip <- unary_skip_no_move ws e k;
      do (pos, _) <- unary_next ws e;
      require! (o =? pos);
      require! (o' =? pos_skip);
      unary_skips_no_move ws e o (k + 1) ones
  end.
(** test_bit_vector.cpp:151-163 *)
Fixpoint unary_skip_no_move_test (ws : list Z) (e : unary_enum) (ones : list Z) : res bool :=
  match ones with
  | [] => Ok true
  | o :: rest =>
      do ok <- unary_skips_no_move ws e o 0 (firstn 256 ones);
      require! ok;
      do (_, e) <- unary_next ws e;
      unary_skip_no_move_test ws e rest
  end.
(** test_bit_vector.cpp:177: the operand [v[expected_pos]] is read before the bound is checked *)
Fixpoint expected_pos_loop (v : list bool) (n : nat) (p : Z) : res Z :=
  do x <- rd v p;
  if negb x && (p <? zlen v) then
    match n with
    | O => Ub OutOfFuel
    | S n => expected_pos_loop v n (p + 1)
    end
  else Ok p.
(** test_bit_vector.cpp:171-185, [n] iterations left; the test at 178 is [break] *)
Fixpoint unary_skip0_tests (v : list bool) (ws : list Z) (n : nat) (pos d skip : Z) : res bool :=
  match n with
  | O => Ok true
  | S n =>
      do x <- rd v (pos + d);
      if (x : bool) then unary_skip0_tests v ws n pos (d + 1) skip
      else
        do ee <- unary_new ws pos;
        do ee <- unary_skip0 ws ee skip;
        do p <- expected_pos_loop v (S (length v)) (pos + d);
        do y <- rd v p;
        if negb y then Ok true
        else
          do (q, _) <- unary_next ws ee;
          require! (p =? q);
          unary_skip0_tests v ws n pos (d + 1) (skip + 1)
  end.
(** test_bit_vector.cpp:169-186, [n] iterations left *)
Fixpoint unary_skip0_test (v : list bool) (ws : list Z) (n : nat) (pos : Z) : res bool :=
  match n with
  | O => Ok true
  | S n =>
      do ok <- unary_skip0_tests v ws (Z.to_nat (Z.min 256 (zlen v - pos))) pos 0 0;
      require! ok;
      unary_skip0_test v ws n (pos + 1)
  end.
(** test_bit_vector.cpp:114-164, the first three blocks *)
Definition test_unary (v : list bool) : res bool :=
  let bitmap := bv_range v in
  let ws := bv_words bitmap in
  do ones <- ones_loop bitmap (length v) 0;
  do e <- unary_new ws 0;
  then_ (unary_next_test ws e ones) (then_ (unary_skip_test ws e ones) (unary_skip_no_move_test ws e ones)).
(** test_bit_vector.cpp:166-187, the last block; the enumerator made at 167 is not used *)
Definition test_unary_skip0 (v : list bool) : res bool :=
  unary_skip0_test v (bv_words (bv_range v)) (length v) 0.
