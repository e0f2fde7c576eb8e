(** * Release builds: the functions whose arithmetic can overflow for arguments of a caller.

    Without overflow checks [usize] arithmetic wraps, and [debug_assert!] is absent. Indexing stays
    checked. Every other function is covered by the debug model: where that answers, no check fails,
    and a release build computes the same. *)
From Verif Require Import Base Spec BitVecModel RsVecModel IterSpec RsIterModel GenIterModel RmqModel WaveletModel.

(** [a - b] and [a + b] on [usize] ([wrapping_sub], [wrapping_add] of GenIterModel.v). *)
Local Notation wsub := wrapping_sub.
Local Notation wadd := wrapping_add.

(** ** Bit vectors: bit_vec/mod.rs [get_bits], fast_rs_vec/mod.rs [get_bits]. *)
Definition bv_get_bits_rel (bv : bitvec) (pos n : N) : res (option N) :=
  if (64 <? n) || (n =? 0) then Ok None
  else if blen bv <? wadd pos n then Ok None
  else let* v := bv_get_bits_unchecked bv pos n in Ok (Some v).

(** ** Generic iterators: util/general_iter.rs 30-45 and 120-123. *)
Definition gi_advance_by_rel (it : gen_iter) (n : N) : res (option gen_iter) :=
  if n =? 0 then Ok (Some it)
  else if some_gt (wsub (wadd (gi_index it) n) 1) (gi_back it) then
    if some_gt (gi_index it) (gi_back it) then Ok None
    else if wsub n (gi_len it) =? 0 then Panic else Ok None
  else Ok (Some (mkgi (wadd (gi_index it) n) (gi_back it))).
Definition gi_nth_rel {A} (get : N -> res (option A)) (it : gen_iter) (n : N) : res (gen_iter * option A) :=
  let* o := gi_advance_by_rel it n in
  match o with None => Ok (it, None) | Some it => gi_next get it end.

(** ** Select iterators: fast_rs_vec/iter.rs 349-358, 414-420 and 426-428. *)
Definition sel_len_rel (it : sel_iter) : N :=
  match it_back it with Some x => wadd x 1 - it_rank it | None => 0 end.
Definition advance_back_by_rel (it : sel_iter) (n : N) : sel_iter * bool :=
  let len := sel_len_rel it in
  if n <=? len then (with_back it (option_map (fun x => wsub x n) (it_back it)), true)
  else (with_back it (option_map (fun x => wsub x len) (it_back it)), false).
Definition sel_nth_back_rel (zero : bool) (rs : rsvec) (it : sel_iter) (n : N) : res (sel_iter * option N) :=
  let '(it, ok) := advance_back_by_rel it n in
  if (ok : bool) then sel_next_back zero rs it else Ok (it, None).

(** ** Range minimum: binary_rmq/mod.rs 124-160, fast_rmq/mod.rs 171-271. *)
Definition clamp_bounds_rel (len : N) (s e : bound) : res (N * N) :=
  let s := match s with Included i => i | Excluded i => wadd i 1 | Unbounded => 0 end in
  (* [clamp] asserts [min <= max], which holds: [len - 1] of an empty structure wraps *)
  let s := N.min s (wsub len 1) in
  let e := match e with Included i => i | Excluded i => wsub i 1 | Unbounded => wsub len 1 end in
  Ok (s, N.min e (wsub len 1)).
Definition br_range_min_rel (r : brmq) (i j : N) : res N :=
  let row := tz_npt (lenN (br_data r)) + 1 in
  let log_dist := N.log2 (wsub j i) in
  let dist := 2 ^ log_dist - 1 in
  let arg p := let* x := idx (br_results r) (wadd (p * row mod U64) log_dist) in Ok (wadd x p) in
  let* a := arg i in
  let* b := arg (wsub j dist) in
  min_by_data (br_data r) a b.
Definition br_range_min_with_range_rel (r : brmq) (s e : bound) : res N :=
  let* '(i, j) := clamp_bounds_rel (lenN (br_data r)) s e in br_range_min_rel r i j.
(** fast_rmq/mod.rs 199-271. The ranks and positions within a block are at most 128. *)
Definition fr_range_min_rel (r : frmq) (i j : N) : res N :=
  let bi := i / 128 in
  let bj := j / 128 in
  let base := (bi + 1) * 128 mod U64 in
  if bi =? bj then
    let* blk := idx (fr_blocks r) bi in
    let* rip := sbv_rank0 (fb_prefix blk) (i mod 128 + 1) in
    let* rjp := sbv_rank0 (fb_prefix blk) (j mod 128 + 1) in
    if rip <? rjp then
      let* s := sbv_select0 (fb_prefix blk) (wsub rjp 1) in
      Ok (wadd (bi * 128) s)
    else
      let* ris := sbv_rank0 (fb_suffix blk) (128 - i mod 128) in
      let* rjs := sbv_rank0 (fb_suffix blk) (128 - j mod 128) in
      if ris <? rjs then
        let* s := sbv_select0 (fb_suffix blk) (wsub rjs 1) in
        Ok (wsub base s)
      else
        let* sl := slice_chk (fr_data r) i (j + 1) in
        let* k := min_index sl in
        Ok (wadd i k)
  else
    let* blki := idx (fr_blocks r) bi in
    let* rs := sbv_rank0 (fb_suffix blki) (128 - i mod 128) in
    let* s := sbv_select0 (fb_suffix blki) (wsub rs 1) in
    let pi := wsub (wsub base s) 1 in
    let* blkj := idx (fr_blocks r) bj in
    let* rp := sbv_rank0 (fb_prefix blkj) (j mod 128 + 1) in
    let* s := sbv_select0 (fb_prefix blkj) (wsub rp 1) in
    let pj := wadd (bj * 128) s in
    if bi + 1 <? bj then
      let* m := br_range_min_rel (fr_minima r) (bi + 1) (wsub bj 1) in
      let* k := idx (fr_indices r) m in
      let mi := wadd (m * 128 mod U64) k in
      let* a := min_by_data (fr_data r) pi pj in
      min_by_data (fr_data r) a mi
    else min_by_data (fr_data r) pi pj.
Definition fr_range_min_with_range_rel (r : frmq) (s e : bound) : res N :=
  let* '(i, j) := clamp_bounds_rel (lenN (fr_data r)) s e in fr_range_min_rel r i j.

(** ** Wavelet matrix. *)
Section Symbol.
Variable rd : N -> res N.
(** wavelet/mod.rs 423-434, 487-498 *)
Fixpoint wm_rank_loop_rel (ds : list rsvec) (level a b : N) : res N :=
  match ds with
  | [] => Ok (wsub b a)
  | d :: ds =>
      let* bit := rd level in
      let* a := wm_down d bit a in
      let* b := wm_down d bit b in
      wm_rank_loop_rel ds (level + 1) a b
  end.
(** wavelet/mod.rs 791-797, 871-877 *)
Fixpoint wm_up_loop_rel (ds : list rsvec) (level e : N) : res N :=
  match ds with
  | [] => Ok e
  | d :: ds =>
      let* e := wm_up_loop_rel ds (level + 1) e in
      let* bit := rd level in
      if bit =? 0 then rs_select0 d e else rs_select1 d (wsub e (rrank0 d))
  end.
(** wavelet/mod.rs 778-800, 858-880 *)
Definition wm_select_loop_rel (ds : list rsvec) (offset rank : N) : res N :=
  let* start := wm_start_loop rd ds 0 offset in
  wm_up_loop_rel ds 0 (wadd start rank).
End Symbol.
(** wavelet/mod.rs 458-467, 520-526 *)
Definition wm_rank_range_rel (w : wavelet) (a b : N) (symbol : bitvec) : res (option N) :=
  if (wm_len w <=? a) || (wm_len w <? b) || negb (blen symbol =? wm_bits w) then Ok None
  else let* r := wm_rank_loop_rel (rd_bv w symbol) w 0 a b in Ok (Some r).
Definition wm_rank_range_u64_rel (w : wavelet) (a b symbol : N) : res (option N) :=
  if (wm_len w <=? a) || (wm_len w <? b) || (64 <? wm_bits w) then Ok None
  else let* r := wm_rank_loop_rel (rd_u64 w symbol) w 0 a b in Ok (Some r).
(** wavelet/mod.rs 826-837, 903-914 *)
Definition wm_select_offset_rel (w : wavelet) (offset rank : N) (symbol : bitvec) : res (option N) :=
  if (wm_len w <=? offset) || negb (blen symbol =? wm_bits w) then Ok None
  else let* i := wm_select_loop_rel (rd_bv w symbol) w offset rank in Ok (wm_found w i).
Definition wm_select_offset_u64_rel (w : wavelet) (offset rank symbol : N) : res (option N) :=
  if (wm_len w <=? offset) || (64 <? wm_bits w) then Ok None
  else let* i := wm_select_loop_rel (rd_u64 w symbol) w offset rank in Ok (wm_found w i).
(** wavelet/mod.rs 1063-1080, 1194-1209 *)
Fixpoint wm_quantile_loop_rel {T} (wr : N -> N -> T -> res T) (ds : list rsvec) (level a b k : N) (prefix : T) : res T :=
  match ds with
  | [] => Ok prefix
  | d :: ds =>
      let* zs := rs_rank0 d a in
      let* ze := rs_rank0 d b in
      let zeros := wsub ze zs in
      if k <? zeros then
        let* prefix := wr 0 level prefix in
        wm_quantile_loop_rel wr ds (level + 1) zs ze k prefix
      else
        let* prefix := wr 1 level prefix in
        wm_quantile_loop_rel wr ds (level + 1) (wadd (rrank0 d) (wsub a zs)) (wadd (rrank0 d) (wsub b ze)) (wsub k zeros) prefix
  end.
(** wavelet/mod.rs 1040-1044, 1105-1111 *)
Definition wm_quantile_rel (w : wavelet) (a b k : N) : res (option bitvec) :=
  if (wm_len w <=? a) || (wm_len w <? b) then Ok None
  else if wsub b a <=? k then Ok None
  else let* v := wm_quantile_loop_rel (wr_ones w) w 0 a b k (bv_from_zeros (wm_bits w)) in Ok (Some v).
(** wavelet/mod.rs 1172-1174, 1234-1244 *)
Definition wm_quantile_u64_rel (w : wavelet) (a b k : N) : res (option N) :=
  if (wm_len w <=? a) || (wm_len w <? b) || (64 <? wm_bits w) then Ok None
  else if wsub b a <=? k then Ok None
  else let* v := wm_quantile_loop_rel wr_u64 w 0 a b k 0 in Ok (Some v).
