(** * Loop budgets of rank, of [FastRmq] and of the select queries of the wavelet matrix, in the style of [CostModel]. *)
From Verif Require Import Base BitVecModel RsVecModel RmqModel WaveletModel CostModel.

(** A slice that is about to be scanned: [Diverge] when it has more than [k] elements. *)
Definition slice_cut (k : N) {A} (l : list A) (a b : N) : res (list A) :=
  let* s := slice_chk l a b in if lenN s <=? k then Ok s else Diverge.

(** fast_rs_vec/mod.rs 260-309; the loop of 294-300 over the words of the block is the only one. *)
Definition rs_rank_gen (slice : list N -> N -> N -> res (list N)) (rs : rsvec) (zero : bool) (pos : N) : res N :=
  if rlen rs <=? pos then Ok (if zero then rrank0 rs else rrank1 rs)
  else
    let index := pos / 64 in
    let block_index := pos / BLOCK_SIZE in
    let super_block_index := pos / SUPER_BLOCK_SIZE in
    let* s := idx (rsupers rs) super_block_index in
    let* r1 := if zero then Ok s else sub (super_block_index * SUPER_BLOCK_SIZE) s in
    let* b := idx (rblocks rs) block_index in
    let* r2 := if zero then Ok b
               else sub ((block_index mod (SUPER_BLOCK_SIZE / BLOCK_SIZE)) * BLOCK_SIZE) b in
    let* words := slice (rdata rs) (block_index * BLOCK_SIZE / 64) index in
    let r3 := fold_left (fun acc w => acc + (if zero then count_zeros64 w else popcount w)) words (r1 + r2) in
    let* w := idx (rdata rs) index in
    let mask := lowmask (pos mod 64) in
    Ok (r3 + popcount (N.land (if zero then not64 w else w) mask)).
Definition rs_rank_cut (k : N) : rsvec -> bool -> N -> res N := rs_rank_gen (slice_cut k).
Lemma rs_rank_gen_same : rs_rank_gen slice_chk = rs_rank.
Proof. reflexivity. Qed.

(** fast_rmq/mod.rs 199-270; the scan of 229-234 is the only loop whose length depends on the
    arguments. [sbv_select0] deposits one bit with at most 64 rounds. *)
Definition fr_range_min_gen (slice : list N -> N -> N -> res (list N)) (r : frmq) (i j : N) : res N :=
  let bi := i / 128 in
  let bj := j / 128 in
  if bi =? bj then
    let* blk := idx (fr_blocks r) bi in
    let* rip := sbv_rank0 (fb_prefix blk) (i mod 128 + 1) in
    let* rjp := sbv_rank0 (fb_prefix blk) (j mod 128 + 1) in
    if rip <? rjp then
      let* s := sbv_select0 (fb_prefix blk) (rjp - 1) in
      Ok (bi * 128 + s)
    else
      let* ris := sbv_rank0 (fb_suffix blk) (128 - i mod 128) in
      let* rjs := sbv_rank0 (fb_suffix blk) (128 - j mod 128) in
      if ris <? rjs then
        let* s := sbv_select0 (fb_suffix blk) (rjs - 1) in
        sub ((bi + 1) * 128) s
      else
        let* sl := slice (fr_data r) i (j + 1) in
        let* k := min_index sl in
        Ok (i + k)
  else
    let* blki := idx (fr_blocks r) bi in
    let* rs := sbv_rank0 (fb_suffix blki) (128 - i mod 128) in
    let* rs := sub rs 1 in
    let* s := sbv_select0 (fb_suffix blki) rs in
    let* p := sub ((bi + 1) * 128) s in
    let* pi := sub p 1 in
    let* blkj := idx (fr_blocks r) bj in
    let* rp := sbv_rank0 (fb_prefix blkj) (j mod 128 + 1) in
    let* rp := sub rp 1 in
    let* s := sbv_select0 (fb_prefix blkj) rp in
    let pj := bj * 128 + s in
    if bi + 1 <? bj then
      let* m := br_range_min (fr_minima r) (bi + 1) (bj - 1) in
      let* k := idx (fr_indices r) m in
      let mi := m * 128 + k in
      let* a := min_by_data (fr_data r) pi pj in
      min_by_data (fr_data r) a mi
    else min_by_data (fr_data r) pi pj.
Definition fr_range_min_cut (k : N) : frmq -> N -> N -> res N := fr_range_min_gen (slice_cut k).
Lemma fr_range_min_gen_same : fr_range_min_gen slice_chk = fr_range_min.
Proof. reflexivity. Qed.

(** wavelet/mod.rs 791-797, 871-877 with the selects of the levels as parameters. *)
Section Select.
Variables sel0 sel1 : rsvec -> N -> res N.
Variable rd : N -> res N.
Fixpoint wm_up_gen (ds : list rsvec) (level e : N) : res N :=
  match ds with
  | [] => Ok e
  | d :: ds =>
      let* e := wm_up_gen ds (level + 1) e in
      let* bit := rd level in
      if bit =? 0 then sel0 d e
      else let* x := sub e (rrank0 d) in sel1 d x
  end.
(** mod.rs 778-800, 858-880 *)
Definition wm_select_gen (ds : list rsvec) (offset rank : N) : res N :=
  let* start := wm_start_loop rd ds 0 offset in
  let* e := add64 start rank in
  wm_up_gen ds 0 e.
End Select.
Lemma wm_select_gen_same : wm_select_gen rs_select0 rs_select1 = wm_select_loop.
Proof. reflexivity. Qed.

(** mod.rs 826-837 and 903-914 with budgets [kb] and [kl] for each select on a level. *)
Definition wm_select_offset_cut (kb kl : nat) (w : wavelet) (offset rank : N) (symbol : bitvec) : res (option N) :=
  if (wm_len w <=? offset) || negb (blen symbol =? wm_bits w) then Ok None
  else let* i := wm_select_gen (rs_select0_cut kb kl) (rs_select1_cut kb kl) (rd_bv w symbol) w offset rank in Ok (wm_found w i).
Definition wm_select_offset_u64_cut (kb kl : nat) (w : wavelet) (offset rank symbol : N) : res (option N) :=
  if (wm_len w <=? offset) || (64 <? wm_bits w) then Ok None
  else let* i := wm_select_gen (rs_select0_cut kb kl) (rs_select1_cut kb kl) (rd_u64 w symbol) w offset rank in Ok (wm_found w i).
