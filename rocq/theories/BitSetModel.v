(** * Model of the AVX-512 bit set iterator (src/bit_vec/fast_rs_vec/bitset.rs, feature [simd]).

    [_mm512_mask_compressstoreu_epi32] is modelled by its documented meaning: the lanes selected by
    the mask are stored contiguously, the rest of the destination keeps its contents. The counters
    [content_len] and [cursor] are at most 16, so their type [u8] needs no wrapping. *)
From Verif Require Import Base Spec BitVecModel RsVecModel.

(** bitset.rs 76-82; the vector is a separate argument of every function. *)
Record bs_iter := mkbs {
  bs_base : N;
  bs_offsets : list N;
  bs_content_len : N;
  bs_cursor : N
}.

(** bitset.rs 10 *)
Definition VECTOR_SIZE : N := 16.

(** bitset.rs 101-115 *)
Definition bs_load_chunk (zero : bool) (it : bs_iter) (data : N) : bs_iter :=
  let mask := if zero then N.lxor data (2 ^ 16 - 1) else data in
  let lanes := filter (N.testbit mask) (range 0 16) in
  mkbs (bs_base it) (lanes ++ dropN (lenN lanes) (bs_offsets it)) (popcount mask) 0.

(** bitset.rs 85-99; [as u16] is the reduction modulo [2 ^ 16]. *)
Definition bs_new (zero : bool) (rs : rsvec) : res bs_iter :=
  let it := mkbs 0 (repeat 0 16) 0 0 in
  if VECTOR_SIZE <? rlen rs then
    let* data := limbs_get_bits_unchecked (rdata rs) 0 VECTOR_SIZE in
    Ok (bs_load_chunk zero it (data mod 2 ^ 16))
  else Ok it.

(** bitset.rs 117-128; the boolean is [is_some] of the result. *)
Fixpoint bs_load_next_chunk (fuel : nat) (zero : bool) (rs : rsvec) (it : bs_iter) : res (bs_iter * bool) :=
  match fuel with
  | O => Diverge
  | S fuel =>
      if bs_cursor it =? bs_content_len it then
        if rlen rs <=? bs_base it + VECTOR_SIZE then Ok (it, false)
        else
          let base := bs_base it + VECTOR_SIZE in
          let* data := limbs_get_bits_unchecked (rdata rs) base VECTOR_SIZE in
          bs_load_next_chunk fuel zero rs
            (bs_load_chunk zero (mkbs base (bs_offsets it) (bs_content_len it) (bs_cursor it)) (data mod 2 ^ 16))
      else Ok (it, true)
  end.

(** bitset.rs 141-149: the two loops, which differ in the bit they look for. *)
Fixpoint bs_scan (fuel : nat) (zero : bool) (rs : rsvec) (base : N) : res N :=
  match fuel with
  | O => Diverge
  | S fuel =>
      if base <? rlen rs then
        let* b := rs_get_unchecked rs base in
        if b =? (if zero then 0 else 1) then Ok base else bs_scan fuel zero rs (base + 1)
      else Ok base
  end.

(** bitset.rs 134-163 *)
Definition bs_next (zero : bool) (rs : rsvec) (it : bs_iter) : res (bs_iter * option N) :=
  let fuel := S (N.to_nat (rlen rs)) in
  let emit it :=
    let* offset := idx (bs_offsets it) (bs_cursor it) in
    Ok (mkbs (bs_base it) (bs_offsets it) (bs_content_len it) (bs_cursor it + 1), Some (bs_base it + offset)) in
  if rlen rs <=? bs_base it then Ok (it, None)
  else if bs_cursor it =? bs_content_len it then
    let* '(it, some) := bs_load_next_chunk fuel zero rs it in
    if (some : bool) then emit it
    else
      let* base := bs_scan fuel zero rs (bs_base it) in
      if base <? rlen rs then
        Ok (mkbs (base + 1) (bs_offsets it) (bs_content_len it) (bs_cursor it), Some base)
      else Ok (mkbs base (bs_offsets it) (bs_content_len it) (bs_cursor it), None)
  else emit it.
