(** * Release builds of the wavelet constructors and of [pdep]: arithmetic wraps, and shifts use the
    low six bits of the distance. Functions that cannot overflow are those of the debug build. *)
From Verif Require Import Base BitVecModel RsVecModel GenIterModel WaveletModel.

(** wavelet/mod.rs 169-171, 293: [>>] shifts by the distance modulo 64. *)
Definition seq_bit_rel (sequence : list N) (element bit : N) : res N :=
  let* x := idx sequence element in
  Ok (N.land (N.shiftr x (bit mod 64)) 1).
(** wavelet/mod.rs 195-198 with wrapping [element_len - 1] *)
Definition pc_first_rel (k n : N) (bit_lookup : N -> N -> res N) (element_lookup : N -> res N)
    (histogram : list N) (data : list bitvec) : res (list N * list bitvec) :=
  forM (range 0 n) (histogram, data) (fun '(histogram, data) i =>
    let* e := element_lookup i in
    let* histogram := incr histogram e in
    let sh := wrapping_sub k 1 in
    let* b := bit_lookup i sh in
    let* d := idx data 0 in
    let* d := bv_set_unchecked d i b in
    let* data := set_idx data 0 d in
    Ok (histogram, data)).
(** wavelet/mod.rs 184-228: [1 << 64] is 1. *)
Definition prefix_counting_rel (k n : N) (bit_lookup : N -> N -> res N) (element_lookup : N -> res N) : res wavelet :=
  let size := shl64 1 (k mod 64) in
  let* '(histogram, data) := pc_first_rel k n bit_lookup element_lookup (replicate size 0) (replicate k (bv_from_zeros n)) in
  let* '(_, _, data) :=
    forM (rev (range 1 k)) (histogram, replicate size 0, data) (fun '(histogram, borders, data) level =>
      let* histogram := pc_combine level histogram in
      let* borders := pc_borders level histogram borders in
      let* d := idx data level in
      let* '(borders, d) := pc_place k n bit_lookup element_lookup level borders d in
      let* data := set_idx data level d in
      Ok (histogram, borders, data)) in
  mapM rs_from_bit_vec data.
(** wavelet/mod.rs 164-172 *)
Definition wm_from_slice_rel (sequence : list N) (k : N) : res wavelet :=
  let* _ := assert (k <=? 64) in
  permutation_sorting k (lenN sequence) (seq_bit_rel sequence).
(** wavelet/mod.rs 249-267 *)
Definition wm_from_bit_vec_pc_rel (bv : bitvec) (k : N) : res wavelet :=
  let* _ := assert (negb (k =? 0)) in
  let* _ := assert (blen bv mod k =? 0) in
  let* _ := assert (k <=? 64) in
  prefix_counting_rel k (blen bv / k) (bv_bit bv k) (bv_element bv k).
(** wavelet/mod.rs 285-296 *)
Definition wm_from_slice_pc_rel (sequence : list N) (k : N) : res wavelet :=
  let* _ := assert (k <=? 64) in
  prefix_counting_rel k (lenN sequence) (seq_bit_rel sequence) (idx sequence).

(** util/pdep.rs 115-129 with wrapping [mask - 1]; signed and unsigned types of the same width then do
    the same. *)
Fixpoint pdepw_loop_rel (fuel : nat) (w value mask bb r : N) : res N :=
  if mask =? 0 then Ok r
  else
    match fuel with
    | O => Diverge
    | S fuel =>
        let r := if negb (N.land value bb =? 0)
                 then N.lor r (N.land mask ((2 ^ w - mask) mod 2 ^ w)) else r in
        pdepw_loop_rel fuel w value (N.land mask ((mask + 2 ^ w - 1) mod 2 ^ w)) ((bb + bb) mod 2 ^ w) r
    end.
(** util/pdep.rs 113-131 and 158-165 *)
Definition pdepw_rel (w value mask : N) : res N := pdepw_loop_rel (S (N.to_nat w)) w value mask 1 0.
