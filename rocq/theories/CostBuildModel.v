(** * Step budgets of the constructors, in the style of [CostModel]. *)
From Verif Require Import Base BitVecModel RsVecModel WaveletModel RmqModel CostWaveletModel.

(** The copies below pass on a budget [q]. Every iteration of a loop written in the source pays one
    step before its body runs, and the copy returns [Diverge] when the budget is used up; otherwise it
    returns its result and the rest of the budget. Filling a new vector ([vec![x; n]]) is not counted. *)

(** [for x in l { s = f(s, x) }] *)
Fixpoint forM_q {A S} (l : list A) (s : S) (f : S -> A -> N -> res (S * N)) (q : N) : res (S * N) :=
  match l with
  | [] => Ok (s, q)
  | x :: r => let* q := pay 1 q in let* '(s, q) := f s x q in forM_q r s f q
  end.
(** [into_iter().map(f).collect()] *)
Fixpoint mapM_q {A B} (f : A -> N -> res (B * N)) (l : list A) (q : N) : res (list B * N) :=
  match l with
  | [] => Ok ([], q)
  | x :: r =>
      let* q := pay 1 q in
      let* '(y, q) := f x q in
      let* '(ys, q) := mapM_q f r q in Ok (y :: ys, q)
  end.
(** A computation without loops. *)
Definition free {A} (m : res A) (q : N) : res (A * N) := let* x := m in Ok (x, q).

(** rs_vec/mod.rs 113-230 *)
Definition rs_from_bit_vec_q (vec : bitvec) (q : N) : res (rsvec * N) :=
  let* '(st, q) := forM_q (range 0 (lenN (bdata vec))) (mkst [] [] [(0, 0)] 0 0 0 0) (fun st i => free (rs_step vec st i)) q in
  free (let* sel := rs_dummies (s_sel st) (s_last0 st) (s_last1 st) in
        let total := s_total st + s_current st in
        let* ones := sub (blen vec) total in
        Ok (mkrs (bdata vec) (blen vec) (s_blocks st) (s_supers st) sel total ones)) q.

Section Build.
Variable k : N.
Variable n : N.
Variable bit_lookup : N -> N -> res N.
Variable element_lookup : N -> res N.

(** wavelet/mod.rs 100-107 *)
Definition ps_fill_q (perm : list N) (level : N) (data : bitvec) (q : N) : res (N * bitvec * N) :=
  forM_q (range 0 (lenN perm)) (0, data) (fun '(zeros, data) i => free (
    let* p := idx perm i in
    let* sh := sub (k - level) 1 in
    let* b := bit_lookup p sh in
    if b =? 0 then Ok (zeros + 1, data)
    else
      let* o := bv_set data i 1 in
      match o with Some data => Ok (zeros, data) | None => Panic end)) q.
(** wavelet/mod.rs 113-123 *)
Definition ps_scatter_q (perm next : list N) (data : bitvec) (zeros : N) (q : N) : res (list N * N) :=
  let* '(next, _, _, q) :=
    forM_q (range 0 (lenN perm)) (next, 0, zeros) (fun '(next, zb, ob) i => free (
      let* p := idx perm i in
      let* b := bv_get_unchecked data i in
      if b =? 0 then let* next := set_idx next zb p in Ok (next, zb + 1, ob)
      else let* next := set_idx next ob p in Ok (next, zb, ob + 1))) q in
  Ok (next, q).
(** wavelet/mod.rs 85-132 *)
Definition permutation_sorting_q (q : N) : res (wavelet * N) :=
  let* '(datas, _, _, q) :=
    forM_q (range 0 k) ([], range 0 n, replicate n 0) (fun '(datas, perm, next) level q =>
      let* '(zeros, data, q) := ps_fill_q perm level (bv_from_zeros n) q in
      if level <? k - 1 then
        let* '(next, q) := ps_scatter_q perm next data zeros q in Ok (datas ++ [data], next, perm, q)
      else Ok (datas ++ [data], perm, next, q)) q in
  mapM_q rs_from_bit_vec_q datas q.

(** wavelet/mod.rs 195-198 *)
Definition pc_first_q (histogram : list N) (data : list bitvec) (q : N) : res (list N * list bitvec * N) :=
  forM_q (range 0 n) (histogram, data) (fun '(histogram, data) i => free (
    let* e := element_lookup i in
    let* histogram := incr histogram e in
    let* sh := sub k 1 in
    let* b := bit_lookup i sh in
    let* d := idx data 0 in
    let* d := bv_set_unchecked d i b in
    let* data := set_idx data 0 d in
    Ok (histogram, data))) q.
(** wavelet/mod.rs 202-204 *)
Definition pc_combine_q (level : N) (histogram : list N) (q : N) : res (list N * N) :=
  forM_q (range 0 (2 ^ level)) histogram (fun histogram h => free (
    let* x := idx histogram (2 * h) in
    let* y := idx histogram (2 * h + 1) in
    set_idx histogram h (x + y))) q.
(** wavelet/mod.rs 208-213 *)
Definition pc_borders_q (level : N) (histogram borders : list N) (q : N) : res (list N * N) :=
  let* borders := set_idx borders 0 0 in
  forM_q (range 1 (2 ^ level)) borders (fun borders h => free (
    let h_minus_1 := N.shiftr (reverse_bits64 (h - 1)) (64 - level) in
    let* b := idx borders h_minus_1 in
    let* x := idx histogram h_minus_1 in
    set_idx borders (N.shiftr (reverse_bits64 h) (64 - level)) (b + x))) q.
(** wavelet/mod.rs 215-222 *)
Definition pc_place_q (level : N) (borders : list N) (data : bitvec) (q : N) : res (list N * bitvec * N) :=
  forM_q (range 0 n) (borders, data) (fun '(borders, data) i => free (
    let* b := bit_lookup i (k - level - 1) in
    let* e := element_lookup i in
    let p := N.shiftr e (k - level) in
    let* pos := idx borders p in
    let* data := bv_set_unchecked data pos b in
    let* borders := incr borders p in
    Ok (borders, data))) q.
(** wavelet/mod.rs 184-228 *)
Definition prefix_counting_q (q : N) : res (wavelet * N) :=
  let* size := shl64_chk 1 k in
  let* '(histogram, data, q) := pc_first_q (replicate size 0) (replicate k (bv_from_zeros n)) q in
  let* '(_, _, data, q) :=
    forM_q (rev (range 1 k)) (histogram, replicate size 0, data) (fun '(histogram, borders, data) level q =>
      let* '(histogram, q) := pc_combine_q level histogram q in
      let* '(borders, q) := pc_borders_q level histogram borders q in
      let* d := idx data level in
      let* '(borders, d, q) := pc_place_q level borders d q in
      let* data := set_idx data level d in
      Ok (histogram, borders, data, q)) q in
  mapM_q rs_from_bit_vec_q data q.
End Build.

(** wavelet/mod.rs 146-152 *)
Definition wm_from_bit_vec_q (bv : bitvec) (k q : N) : res (wavelet * N) :=
  let* _ := assert (negb (k =? 0)) in
  let* _ := assert (blen bv mod k =? 0) in
  permutation_sorting_q k (blen bv / k) (bv_bit bv k) q.
(** wavelet/mod.rs 164-172 *)
Definition wm_from_slice_q (sequence : list N) (k q : N) : res (wavelet * N) :=
  let* _ := assert (k <=? 64) in
  permutation_sorting_q k (lenN sequence) (seq_bit sequence) q.
(** wavelet/mod.rs 249-267 *)
Definition wm_from_bit_vec_pc_q (bv : bitvec) (k q : N) : res (wavelet * N) :=
  let* _ := assert (negb (k =? 0)) in
  let* _ := assert (blen bv mod k =? 0) in
  let* _ := assert (k <=? 64) in
  prefix_counting_q k (blen bv / k) (bv_bit bv k) (bv_element bv k) q.
(** wavelet/mod.rs 285-296 *)
Definition wm_from_slice_pc_q (sequence : list N) (k q : N) : res (wavelet * N) :=
  let* _ := assert (k <=? 64) in
  prefix_counting_q k (lenN sequence) (seq_bit sequence) (fun i => idx sequence i) q.

(** binary_rmq/mod.rs 48-107 *)
Definition br_from_vec_q (data : list N) (q : N) : res (brmq * N) :=
  let len := lenN data in
  let* _ := assert (len <? 2 ^ 32) in
  let row := tz_npt len + 1 in
  let results := replicate (len * row) 0 in
  let* '(results, q) := forM_q (range 0 len) results (fun r i => free (set_idx r (i * row) 0)) q in
  let* '(results, q) := forM_q (range 0 (tz_npt len)) results
    (fun r i => forM_q (range 0 len) r (fun r j => free (br_cell data row i r j))) q in
  Ok (mkbr data results, q).
(** fast_rmq/mod.rs 107-146 *)
Definition fr_push_block_q (st : list N * list N * list fblock) (block : list N) (q : N) : res (list N * list N * list fblock * N) :=
  let '(minima, indices, blocks) := st in
  let* b0 := idx block 0 in
  let* '(pm, pmin, bmin, bidx, q) := forM_q (range 1 (lenN block)) (0, b0, b0, 0) (fun st i => free (fr_prefix_step block st i)) q in
  let* l1 := sub (lenN block) 1 in
  let* bl := idx block l1 in
  let* '(sm, smin, q) := forM_q (range 2 (lenN block + 1)) (0, bl) (fun st i => free (fr_suffix_step block st i)) q in
  Ok (minima ++ [bmin], indices ++ [bidx], blocks ++ [mkfb pm sm], q).
(** fast_rmq/mod.rs 100-154 *)
Definition fr_from_vec_q (data : list N) (q : N) : res (frmq * N) :=
  let* _ := assert (lenN data <? 2 ^ 40) in
  let* '(minima, indices, blocks, q) := forM_q (chunks128 data) ([], [], []) fr_push_block_q q in
  let* '(m, q) := br_from_vec_q minima q in
  Ok (mkfr data m indices blocks, q).
