(** * Release-build versions of indexed reads whose position is a product.

    In a release build [index * n] and the other arithmetic of these functions wrap modulo 2^64;
    indexing is checked in both builds. Simplification: as in [BitVecModel.v], a shift by the width of
    the elements is only used for widths below 64. *)
From Verif Require Import Base BitVecModel RsVecModel EFModel GenIterModel ReleaseModel.

Definition wrapping_mul (a b : N) : N := (a * b) mod U64.

(** bit_vec/mod.rs 1234-1236 *)
Definition bv_unpack_element_rel (bv : bitvec) (index n : N) : res (option N) :=
  bv_get_bits_rel bv (wrapping_mul index n) n.
(** bit_vec/mod.rs 1197-1206 and fast_rs_vec/mod.rs 380-389. The assertion on the length is absent,
    [pos % 64 + len] wraps, [len as u32] drops the high half, and a shift uses its amount modulo 64. *)
Definition limbs_get_bits_unchecked_rel (d : list N) (pos n : N) : res N :=
  let* w := idx d (pos / 64) in
  let partial_word := N.shiftr w (pos mod 64) in
  if wrapping_add (pos mod 64) n <=? 64 then Ok (N.land partial_word (wrapmask (n mod 2 ^ 32)))
  else
    let* w2 := idx d (pos / 64 + 1) in
    Ok (N.land (N.lor partial_word (shl64 w2 ((64 - pos mod 64) mod 64))) (wrapmask (n mod 2 ^ 32))).
Definition bv_get_bits_unchecked_rel (bv : bitvec) (pos n : N) : res N := limbs_get_bits_unchecked_rel (bdata bv) pos n.
Definition rs_get_bits_unchecked_rel (rs : rsvec) (pos n : N) : res N := limbs_get_bits_unchecked_rel (rdata rs) pos n.
(** bit_vec/mod.rs 1256-1258 *)
Definition bv_unpack_element_unchecked_rel (bv : bitvec) (index n : N) : res N :=
  bv_get_bits_unchecked_rel bv (wrapping_mul index n) n.
(** mask.rs 142-161 *)
Definition masked_get_bits_unchecked_rel (m : masked) (pos n : N) : res N :=
  let* a := idx (bdata (mvec m)) (pos / 64) in
  let* b := idx (bdata (mmask m)) (pos / 64) in
  let partial_word := N.shiftr (mop m a b) (pos mod 64) in
  if wrapping_add (pos mod 64) n =? 64 then Ok partial_word
  else if wrapping_add (pos mod 64) n <? 64 then Ok (N.land partial_word (lowmask (n mod 64)))
  else
    let* a2 := idx (bdata (mvec m)) (pos / 64 + 1) in
    let* b2 := idx (bdata (mmask m)) (pos / 64 + 1) in
    Ok (N.land (N.lor partial_word (shl64 (mop m a2 b2) ((64 - pos mod 64) mod 64))) (lowmask (n mod 64))).
(** mask.rs 111-120 *)
Definition masked_get_bits_rel (m : masked) (pos n : N) : res (option N) :=
  if (64 <? n) || (n =? 0) then Ok None
  else if blen (mvec m) <? wrapping_add pos n then Ok None
  else let* v := masked_get_bits_unchecked_rel m pos n in Ok (Some v).

(** elias_fano/mod.rs 184-190 *)
Definition ef_get_unchecked_rel (e : ef) (i : N) : res N :=
  let* s := rs_select1 (ef_upper e) i in
  let upper := wrapping_sub (wrapping_sub s i) 1 in
  let* lower := bv_get_bits_unchecked (ef_lower e) (wrapping_mul i (ef_w e)) (ef_w e) in
  Ok (wrapping_add (N.lor (shl64 upper (ef_w e)) lower) (ef_zero e)).
