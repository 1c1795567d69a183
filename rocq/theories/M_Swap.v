(** Model of the swap members of the structures and of util.hpp dispose.

    A swap takes the two objects and gives them back; exchanging two members is exchanging their
    values. For vectors that is mappable_vector.hpp:61-66, whose pointers and deleters travel with the
    elements (M_MVec). bit_vector_builder::swap is in M_BitVector and mappable_vector::swap in M_MVec. *)
From Verif Require Import Base M_BitVector M_RsBitVector M_Darray M_EliasFano M_Gamma M_Util M_Bp M_Topk.

(** std::swap and mappable_vector::swap on the values (e.g. bit_vector.hpp:234-237, mappable_vector.hpp:61-66) *)
Definition exchange {A} (a b : A) : A * A := let tmp := a in let a := b in let b := tmp in (a, b).

(** bit_vector.hpp:234-237 *)
Definition bv_swap (this other : bit_vector) : bit_vector * bit_vector :=
  let '(osize, tsize) := exchange (bv_size other) (bv_size this) in
  let '(obits, tbits) := exchange (bv_words other) (bv_words this) in
  (mk_bv tsize tbits, mk_bv osize obits).

(** rs_bit_vector.hpp:36-41 *)
Definition rs_swap (this other : rs_bit_vector) : rs_bit_vector * rs_bit_vector :=
  let '(tbv, obv) := bv_swap (rs_bv this) (rs_bv other) in
  let '(tp, op) := exchange (rs_pairs this) (rs_pairs other) in
  let '(th, oh) := exchange (rs_hints this) (rs_hints other) in
  let '(th0, oh0) := exchange (rs_hints0 this) (rs_hints0 other) in
  (mk_rs tbv tp th th0, mk_rs obv op oh oh0).

(** bp_vector.hpp:38-43; cartesian_tree.hpp:156-159 exchanges its only member *)
Definition bp_swap (this other : bp_vector) : bp_vector * bp_vector :=
  let '(trs, ors) := rs_swap (bp_rs this) (bp_rs other) in
  let '(tn, on) := exchange (bp_internal_nodes this) (bp_internal_nodes other) in
  let '(tb, ob) := exchange (bp_block_excess_min this) (bp_block_excess_min other) in
  let '(ts, os) := exchange (bp_superblock_excess_min this) (bp_superblock_excess_min other) in
  (mk_bp trs tn tb ts, mk_bp ors on ob os).

(** darray.hpp:67-72 *)
Definition da_swap (this other : darray) : darray * darray :=
  let '(op, tp) := exchange (da_positions other) (da_positions this) in
  let '(tb, ob) := exchange (da_blocks this) (da_blocks other) in
  let '(ts, os) := exchange (da_subs this) (da_subs other) in
  let '(tv, ov) := exchange (da_ovf this) (da_ovf other) in
  (mk_darray tp tb ts tv, mk_darray op ob os ov).

(** darray64.hpp:48-54 *)
Definition d64_swap (this other : darray64) : darray64 * darray64 :=
  let '(tn, on) := exchange (d64_num_ones this) (d64_num_ones other) in
  let '(tbv, obv) := bv_swap (d64_bits this) (d64_bits other) in
  let '(tb, ob) := exchange (d64_blocks this) (d64_blocks other) in
  let '(ts, os) := exchange (d64_subs this) (d64_subs other) in
  (mk_d64 tn tbv tb ts, mk_d64 on obv ob os).

(** elias_fano.hpp:92-99; elias_fano_list.hpp:52-55 exchanges its only member *)
Definition ef_swap (this other : elias_fano) : elias_fano * elias_fano :=
  let '(osize, tsize) := exchange (ef_size other) (ef_size this) in
  let '(oh, th) := bv_swap (ef_high other) (ef_high this) in
  let '(o1, t1) := da_swap (ef_d1 other) (ef_d1 this) in
  let '(o0, t0) := da_swap (ef_d0 other) (ef_d0 this) in
  let '(olow, tlow) := bv_swap (ef_low other) (ef_low this) in
  let '(ol, tl) := exchange (ef_l other) (ef_l this) in
  (mk_ef tsize th t1 t0 tlow tl, mk_ef osize oh o1 o0 olow ol).

(** elias_fano_compressed_list.hpp:55-59 *)
Definition efc_swap (this other : ef_compressed) : ef_compressed * ef_compressed :=
  let '(te, oe) := ef_swap (efc_ef this) (efc_ef other) in
  let '(tb, ob) := bv_swap (efc_bits this) (efc_bits other) in
  (mk_efc te tb, mk_efc oe ob).

(** gamma_vector.hpp:53-57, gamma_bit_vector.hpp:59-63 *)
Definition gamma_swap (this other : gamma) : gamma * gamma :=
  let '(th, oh) := d64_swap (g_high this) (g_high other) in
  let '(tl, ol) := bv_swap (g_low this) (g_low other) in
  (mk_gamma th tl, mk_gamma oh ol).

(** nibble_vector.hpp:49-52 *)
Definition nv_swap (this other : nibble_vector) : nibble_vector * nibble_vector :=
  let '(osize, tsize) := exchange (nv_size other) (nv_size this) in
  let '(on, tn) := exchange (nv_nibbles other) (nv_nibbles this) in
  (mk_nv tsize tn, mk_nv osize on).

(** topk_vector.hpp:176-180 *)
Definition tk_swap {T} (this other : topk_vector T) : topk_vector T * topk_vector T :=
  let '(ov, tv) := exchange (tk_v other) (tk_v this) in
  let '(oc, tc) := bp_swap (tk_tree other) (tk_tree this) in
  (mk_tk tv tc, mk_tk ov oc).

(** topk_vector.hpp:87-93; the vector an enumerator belongs to (m_topkv) is an argument of its
    functions in M_Topk, here [V] stands for the pointer *)
Definition te_swap {T V} (this other : V * tk_enum T) : (V * tk_enum T) * (V * tk_enum T) :=
  let '(tv, ov) := exchange (fst this) (fst other) in
  let '(tq, oq) := exchange (te_q (snd this)) (te_q (snd other)) in
  let '(tc, oc) := exchange (te_cur (snd this)) (te_cur (snd other)) in
  ((tv, mk_te tq tc), (ov, mk_te oq oc)).

(** util.hpp:241-245: [fresh] is the temporary T(); the result is t *)
Definition dispose {T} (swap : T -> T -> T * T) (fresh t : T) : T := snd (swap fresh t).
