(** * Model of the range minimum structures: src/rmq/binary_rmq/mod.rs and src/rmq/fast_rmq/mod.rs. *)
From Verif Require Import Base Spec BitVecModel RsVecModel.

(** ** BinaryRmq *)
(** binary_rmq/mod.rs 32-39 *)
Record brmq := mkbr { br_data : list N; br_results : list N }.

(** [len.next_power_of_two().trailing_zeros()] (1 is the next power of two of 0). *)
Definition tz_npt (len : N) : N := N.log2_up len.

(** [results[j * row_length + i] as usize + j] *)
Definition br_arg (results : list N) (row i j : N) : res N :=
  let* r := idx results (j * row + i) in Ok (r + j).

(** binary_rmq/mod.rs 72-96: [arg_min] for column [i + 1] of row [j]. *)
Definition br_arg_min (data results : list N) (row i j : N) : res N :=
  let offset := 2 ^ i in
  if j + offset <? lenN data then
    let* a := br_arg results row i j in
    let* b := br_arg results row i (j + offset) in
    let* x := idx data a in
    let* y := idx data b in
    Ok (if x <? y then a else b)
  else
    let* t := sub (lenN data) offset in
    let* t := sub t 1 in
    if j <? t then
      let* a := br_arg results row i j in
      let* k := sub (t * row + i) 1 in
      let* r := idx results k in
      let* x := idx data a in
      let* y := idx data (r + t) in
      Ok (if x <? y then a else r + t)
    else Ok j.

(** binary_rmq/mod.rs 98-102; the cast to [u32] truncates. *)
Definition br_cell (data : list N) (row i : N) (results : list N) (j : N) : res (list N) :=
  let* a := br_arg_min data results row i j in
  let* d := sub a j in
  set_idx results (j * row + i + 1) (d mod 2 ^ 32).

(** binary_rmq/mod.rs 48-107 *)
Definition br_from_vec (data : list N) : res brmq :=
  let len := lenN data in
  let* _ := assert (len <? 2 ^ 32) in
  let row := tz_npt len + 1 in
  let results := replicate (len * row) 0 in
  let* results := forM (range 0 len) results (fun r i => set_idx r (i * row) 0) in
  let* results := forM (range 0 (tz_npt len)) results
    (fun r i => forM (range 0 len) r (br_cell data row i)) in
  Ok (mkbr data results).

(** [min_by(a, b, |a, b| data[a].cmp(&data[b]))]: the first argument unless the second is smaller. *)
Definition min_by_data (data : list N) (a b : N) : res N :=
  let* x := idx data a in
  let* y := idx data b in
  Ok (if y <? x then b else a).

(** binary_rmq/mod.rs 149-160; [(usize::BITS - x.leading_zeros()).saturating_sub(1)] is the binary
    logarithm, 0 for 0. *)
Definition br_range_min (r : brmq) (i j : N) : res N :=
  let row := tz_npt (lenN (br_data r)) + 1 in
  let* d := sub j i in
  let log_dist := N.log2 d in
  let dist := 2 ^ log_dist - 1 in
  let* a := br_arg (br_results r) row log_dist i in
  let* s := sub j dist in
  let* b := br_arg (br_results r) row log_dist s in
  min_by_data (br_data r) a b.

(** [std::ops::Bound] *)
Inductive bound := Included (i : N) | Excluded (i : N) | Unbounded.
(** binary_rmq/mod.rs 124-139 and fast_rmq/mod.rs 171-186: the two bounds after clamping. *)
Definition clamp_bounds (len : N) (s e : bound) : res (N * N) :=
  let* s := match s with Included i => Ok i | Excluded i => add64 i 1 | Unbounded => Ok 0 end in
  let* m := sub len 1 in
  let s := N.min s m in
  let* e := match e with Included i => Ok i | Excluded i => sub i 1 | Unbounded => sub len 1 end in
  let* m := sub len 1 in
  Ok (s, N.min e m).
Definition br_range_min_with_range (r : brmq) (s e : bound) : res N :=
  let* '(i, j) := clamp_bounds (lenN (br_data r)) s e in br_range_min r i j.

(** ** FastRmq *)
(** fast_rmq/mod.rs 22-50: [SmallBitVector], a 128-bit word. *)
Definition U128 : N := 2 ^ 128.
Definition sbv_rank0 (v i : N) : res N :=
  let* _ := assert (i <=? 128) in
  let mask := ((if i <? 128 then 2 ^ i else 0) + (U128 - 1)) mod U128 in
  Ok (popcount (N.land (N.lxor v (U128 - 1)) mask)).
Definition sbv_select0 (v rank : N) : res N :=
  let word := N.land v 0xFFFFFFFFFFFFFFFF in
  if count_zeros64 word <=? rank then
    let rank := rank - count_zeros64 word in
    let word := N.shiftr v 64 mod U64 in
    let* t := pdep_select (rank mod 64) (not64 word) in
    Ok (64 + t)
  else pdep_select rank (not64 word).
(** [1u128 << i] panics for [i = 128]. *)
Definition sbv_set_bit (v i : N) : res N :=
  let* _ := assert (i <=? 128) in
  if i <? 128 then Ok (N.lor v (2 ^ i)) else Panic.

(** fast_rmq/mod.rs 60-63 and 85-90 *)
Record fblock := mkfb { fb_prefix : N; fb_suffix : N }.
Record frmq := mkfr { fr_data : list N; fr_minima : brmq; fr_indices : list N; fr_blocks : list fblock }.

(** [data.chunks(128)] *)
Definition chunks128 (data : list N) : list (list N) :=
  map (fun b => firstn 128 (skipn (N.to_nat (128 * b)) data)) (range 0 ((lenN data + 127) / 128)).

(** fast_rmq/mod.rs 115-128: the loop over [block.iter().enumerate().skip(1)]; the state is
    [prefix_minima], [prefix_minimum], [block_minimum], [block_minimum_index]. *)
Definition fr_prefix_step (block : list N) (st : N * N * N * N) (i : N) : res (N * N * N * N) :=
  let '(pm, pmin, bmin, bidx) := st in
  let* elem := idx block i in
  let* '(pm, pmin) :=
    (if elem <? pmin then Ok (pm, elem) else let* pm := sbv_set_bit pm i in Ok (pm, pmin)) in
  if elem <? bmin then Ok (pm, pmin, elem, i mod 256) else Ok (pm, pmin, bmin, bidx).
(** fast_rmq/mod.rs 132-138: the loop over [2..=block.len()]; the state is [suffix_minima] and
    [suffix_minimum]. *)
Definition fr_suffix_step (block : list N) (st : N * N) (i : N) : res (N * N) :=
  let '(sm, smin) := st in
  let* k := sub (lenN block) i in
  let* elem := idx block k in
  if elem <? smin then Ok (sm, elem)
  else let* i1 := sub i 1 in let* sm := sbv_set_bit sm i1 in Ok (sm, smin).
(** fast_rmq/mod.rs 107-146: one block. *)
Definition fr_push_block (st : list N * list N * list fblock) (block : list N) : res (list N * list N * list fblock) :=
  let '(minima, indices, blocks) := st in
  let* b0 := idx block 0 in
  let* '(pm, pmin, bmin, bidx) := forM (range 1 (lenN block)) (0, b0, b0, 0) (fr_prefix_step block) in
  let* l1 := sub (lenN block) 1 in
  let* bl := idx block l1 in
  let* '(sm, smin) := forM (range 2 (lenN block + 1)) (0, bl) (fr_suffix_step block) in
  Ok (minima ++ [bmin], indices ++ [bidx], blocks ++ [mkfb pm sm]).

(** fast_rmq/mod.rs 100-154 *)
Definition fr_from_vec (data : list N) : res frmq :=
  let* _ := assert (lenN data <? 2 ^ 40) in
  let* '(minima, indices, blocks) := forM (chunks128 data) ([], [], []) fr_push_block in
  let* m := br_from_vec minima in
  Ok (mkfr data m indices blocks).

(** [(index, value)] with the smallest value, the first one if there are several:
    [iter().enumerate().min_by_key(|(_, &x)| x)]. *)
Fixpoint min_index_from (l : list N) (i best bestv : N) : N :=
  match l with
  | [] => best
  | x :: r => if x <? bestv then min_index_from r (i + 1) i x else min_index_from r (i + 1) best bestv
  end.
Definition min_index (l : list N) : res N :=
  match l with [] => Panic | x :: r => Ok (min_index_from r 1 0 x) end.

(** fast_rmq/mod.rs 199-270 *)
Definition fr_range_min (r : frmq) (i j : N) : res N :=
  let bi := i / 128 in
  let bj := j / 128 in
  if bi =? bj then
    let* blk := idx (fr_blocks r) bi in
    let* rip := sbv_rank0 (fb_prefix blk) (i mod 128 + 1) in
    let* rjp := sbv_rank0 (fb_prefix blk) (j mod 128 + 1) in
    if rip <? rjp then
      let* s := sbv_select0 (fb_prefix blk) (rjp - 1) in
      Ok (bi * 128 + s)
    else
      let* ris := sbv_rank0 (fb_suffix blk) (128 - i mod 128) in
      let* rjs := sbv_rank0 (fb_suffix blk) (128 - j mod 128) in
      if ris <? rjs then
        let* s := sbv_select0 (fb_suffix blk) (rjs - 1) in
        sub ((bi + 1) * 128) s
      else
        let* sl := slice_chk (fr_data r) i (j + 1) in
        let* k := min_index sl in
        Ok (i + k)
  else
    let* blki := idx (fr_blocks r) bi in
    let* rs := sbv_rank0 (fb_suffix blki) (128 - i mod 128) in
    let* rs := sub rs 1 in
    let* s := sbv_select0 (fb_suffix blki) rs in
    let* p := sub ((bi + 1) * 128) s in
    let* pi := sub p 1 in
    let* blkj := idx (fr_blocks r) bj in
    let* rp := sbv_rank0 (fb_prefix blkj) (j mod 128 + 1) in
    let* rp := sub rp 1 in
    let* s := sbv_select0 (fb_prefix blkj) rp in
    let pj := bj * 128 + s in
    if bi + 1 <? bj then
      let* m := br_range_min (fr_minima r) (bi + 1) (bj - 1) in
      let* k := idx (fr_indices r) m in
      let mi := m * 128 + k in
      let* a := min_by_data (fr_data r) pi pj in
      min_by_data (fr_data r) a mi
    else min_by_data (fr_data r) pi pj.
(** fast_rmq/mod.rs 171-186 *)
Definition fr_range_min_with_range (r : frmq) (s e : bound) : res N :=
  let* '(i, j) := clamp_bounds (lenN (fr_data r)) s e in fr_range_min r i j.
