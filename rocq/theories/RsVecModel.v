(** * Model of [RsVec] (src/bit_vec/fast_rs_vec/mod.rs and select.rs) and software [pdep].

    Modelled: both the scalar and the AVX-512 variant of the block search, and the software [pdep].
    [select0], [select1] and the iterators take the block search as an argument ([.._with]); without
    suffix they use the scalar variant. *)
From Verif Require Import Base BitVecModel.

(** mod.rs 23-38 *)
Definition BLOCK_SIZE : N := 512.
Definition SUPER_BLOCK_SIZE : N := 8192.
Definition SELECT_BLOCK_SIZE : N := 8192.

(** mod.rs 48-102. Block and super-block descriptors are their [zeros] field; a select block is
    the pair ([index_0], [index_1]). *)
Record rsvec := mkrs {
  rdata : list N;
  rlen : N;
  rblocks : list N;
  rsupers : list N;
  rsel : list (N * N);
  rrank0 : N;
  rrank1 : N
}.

(** The local variables of [from_bit_vec], mod.rs 116-129. *)
Record rs_st := mkst {
  s_blocks : list N;
  s_supers : list N;
  s_sel : list (N * N);
  s_total : N;
  s_current : N;
  s_last0 : N;
  s_last1 : N
}.

(** [v[i].index_0 = x] and [v[i].index_1 = x] *)
Definition set_idx0 (l : list (N * N)) (i x : N) : res (list (N * N)) :=
  let* e := idx l i in set_idx l i (x, snd e).
Definition set_idx1 (l : list (N * N)) (i x : N) : res (list (N * N)) :=
  let* e := idx l i in set_idx l i (fst e, x).

(** mod.rs 131-191: one iteration of the construction loop. The cast [as u16] of a count that is
    at most 8192 is the identity. *)
Definition rs_step (vec : bitvec) (st : rs_st) (i : N) : res rs_st :=
  let* word := idx (bdata vec) i in
  let newsuper := (i mod 8 =? 0) && (i mod 128 =? 0) in
  let total := if newsuper then s_total st + s_current st else s_total st in
  let current := if newsuper then 0 else s_current st in
  let supers := if newsuper then s_supers st ++ [total] else s_supers st in
  let blocks := if i mod 8 =? 0 then s_blocks st ++ [current] else s_blocks st in
  let zeros := count_zeros64 word in
  let* lastidx := sub (lenN (bdata vec)) 1 in
  let* new_zeros :=
    if (i =? lastidx) && negb (blen vec mod 64 =? 0) then
      let mask := lowmask (blen vec mod 64) in
      sub zeros (count_zeros64 (N.lor word mask))
    else Ok zeros in
  let all_zeros := total + current + new_zeros in
  let* sb := sub (lenN supers) 1 in
  let* '(sel, last0) :=
    if (total + current) / SELECT_BLOCK_SIZE <? all_zeros / SELECT_BLOCK_SIZE then
      let* sel :=
        if all_zeros / SELECT_BLOCK_SIZE =? lenN (s_sel st)
        then Ok (s_sel st ++ [(sb, 0)])
        else set_idx0 (s_sel st) (all_zeros / SELECT_BLOCK_SIZE) sb in
      Ok (sel, s_last0 st + 1)
    else Ok (s_sel st, s_last0 st) in
  let total_bits := (i + 1) * 64 in
  let* all_ones := sub total_bits all_zeros in
  let* before0 := sub (i * 64) total in
  let* before := sub before0 current in
  let* '(sel, last1) :=
    if before / SELECT_BLOCK_SIZE <? all_ones / SELECT_BLOCK_SIZE then
      let* sel :=
        if all_ones / SELECT_BLOCK_SIZE =? lenN sel
        then Ok (sel ++ [(0, sb)])
        else set_idx1 sel (all_ones / SELECT_BLOCK_SIZE) sb in
      Ok (sel, s_last1 st + 1)
    else Ok (sel, s_last1 st) in
  Ok (mkst blocks supers sel total (current + new_zeros) last0 last1).

(** mod.rs 198-217: the dummy entries behind the last select blocks. *)
Definition rs_dummies (sel : list (N * N)) (last0 last1 : N) : res (list (N * N)) :=
  let* e0 := idx sel last0 in
  let* n1 := sub (lenN sel) 1 in
  let* sel :=
    if last0 =? n1 then Ok (sel ++ [(fst e0, 0)])
    else
      let* e := idx sel (last0 + 1) in
      let* _ := assert (fst e =? 0) in
      set_idx0 sel (last0 + 1) (fst e0) in
  let* e1 := idx sel last1 in
  let* n1 := sub (lenN sel) 1 in
  if last1 =? n1 then Ok (sel ++ [(0, snd e1)])
  else
    let* e := idx sel (last1 + 1) in
    let* _ := assert (snd e =? 0) in
    set_idx1 sel (last1 + 1) (snd e1).

(** mod.rs 113-230 *)
Definition rs_from_bit_vec (vec : bitvec) : res rsvec :=
  let* st := forM (range 0 (lenN (bdata vec))) (mkst [] [] [(0, 0)] 0 0 0 0) (rs_step vec) in
  let* sel := rs_dummies (s_sel st) (s_last0 st) (s_last1 st) in
  let total := s_total st + s_current st in
  let* ones := sub (blen vec) total in
  Ok (mkrs (bdata vec) (blen vec) (s_blocks st) (s_supers st) sel total ones).

(** mod.rs 260-309; [zero = true] counts zeros. *)
Definition rs_rank (rs : rsvec) (zero : bool) (pos : N) : res N :=
  if rlen rs <=? pos then Ok (if zero then rrank0 rs else rrank1 rs)
  else
    let index := pos / 64 in
    let block_index := pos / BLOCK_SIZE in
    let super_block_index := pos / SUPER_BLOCK_SIZE in
    let* s := idx (rsupers rs) super_block_index in
    let* r1 := if zero then Ok s else sub (super_block_index * SUPER_BLOCK_SIZE) s in
    let* b := idx (rblocks rs) block_index in
    let* r2 := if zero then Ok b
               else sub ((block_index mod (SUPER_BLOCK_SIZE / BLOCK_SIZE)) * BLOCK_SIZE) b in
    let* words := slice_chk (rdata rs) (block_index * BLOCK_SIZE / 64) index in
    let r3 := fold_left (fun acc w => acc + (if zero then count_zeros64 w else popcount w)) words (r1 + r2) in
    let* w := idx (rdata rs) index in
    let mask := lowmask (pos mod 64) in
    Ok (r3 + popcount (N.land (if zero then not64 w else w) mask)).

(** mod.rs 240-254 *)
Definition rs_rank0 (rs : rsvec) (pos : N) : res N := rs_rank rs true pos.
Definition rs_rank1 (rs : rsvec) (pos : N) : res N := rs_rank rs false pos.

(** mod.rs 327-343 *)
Definition rs_get_unchecked (rs : rsvec) (pos : N) : res N :=
  let* w := idx (rdata rs) (pos / 64) in Ok (N.land (N.shiftr w (pos mod 64)) 1).
Definition rs_get (rs : rsvec) (pos : N) : res (option N) :=
  if rlen rs <=? pos then Ok None
  else let* b := rs_get_unchecked rs pos in Ok (Some b).

(** mod.rs 351-389; the body of [get_bits_unchecked] is that of [BitVec]. *)
Definition rs_get_bits (rs : rsvec) (pos n : N) : res (option N) :=
  if 64 <? n then Ok None
  else
    let* e := add64 pos n in
    if rlen rs <? e then Ok None
    else let* v := limbs_get_bits_unchecked (rdata rs) pos n in Ok (Some v).

(** mod.rs 413-418 *)
Definition rs_into_bit_vec (rs : rsvec) : bitvec := mkbv (rdata rs) (rlen rs).

(** ** util/pdep.rs 115-129 for u64. At most 64 iterations clear a bit each; fuel 65. *)
Fixpoint pdep_loop (fuel : nat) (value mask bb r : N) : res N :=
  if mask =? 0 then Ok r
  else
    match fuel with
    | O => Diverge
    | S fuel =>
        let r := if negb (N.land value bb =? 0)
                 then N.lor r (N.land mask ((U64 - mask) mod U64)) else r in
        let mask' := N.land mask (mask - 1) in
        pdep_loop fuel value mask' ((bb + bb) mod U64) r
    end.
Definition pdep (value mask : N) : res N := pdep_loop 65 value mask 1 0.

(** [(1 << rank).pdep(mask).trailing_zeros()] *)
Definition pdep_select (rank mask : N) : res N :=
  let* v := shl64_chk 1 rank in
  let* r := pdep v mask in
  Ok (ctz64 r).

(** select.rs 101-118: one step of the unrolled binary search, and the four steps. *)
Definition search_block0_step (rs : rsvec) (rank bi boundary : N) : res N :=
  if bi + boundary <? lenN (rblocks rs) then
    let* b := idx (rblocks rs) (bi + boundary) in
    Ok (if b <=? rank then bi + boundary else bi)
  else Ok bi.
Definition search_block0 (rs : rsvec) (rank bi : N) : res N :=
  forM [8; 4; 2; 1] bi (search_block0_step rs rank).

(** select.rs 129-155 *)
Definition search_word_in_block0 (rs : rsvec) (rank bi : N) : res N :=
  let* r := forM_ret (range 0 7) (rank, 0) (fun '(rank, counter) n =>
    let* word := idx (rdata rs) (bi * BLOCK_SIZE / 64 + n) in
    if count_zeros64 word <=? rank then
      let* rank' := sub rank (count_zeros64 word) in
      Ok (inl (rank', counter + 64))
    else
      let* t := pdep_select rank (not64 word) in
      Ok (inr (bi * BLOCK_SIZE + counter + t))) in
  match r with
  | inr p => Ok p
  | inl (rank, counter) =>
      let* word := idx (rdata rs) (bi * BLOCK_SIZE / 64 + 7) in
      let* t := pdep_select rank (not64 word) in
      Ok (bi * BLOCK_SIZE + counter + t)
  end.

(** select.rs 168-176: binary search; the subtraction in the loop condition is checked. *)
Fixpoint search_super0_bin (fuel : nat) (rs : rsvec) (rank sb ub : N) : res N :=
  let* d := sub ub sb in
  if 8 <? d then
    match fuel with
    | O => Diverge
    | S fuel =>
        let middle := sb + d / 2 in
        let* z := idx (rsupers rs) middle in
        if z <=? rank then search_super0_bin fuel rs rank middle ub
        else search_super0_bin fuel rs rank sb middle
    end
  else Ok sb.
(** select.rs 179-183: linear search *)
Fixpoint search_super0_lin (fuel : nat) (rs : rsvec) (rank sb : N) : res N :=
  let* go :=
    if sb + 1 <? lenN (rsupers rs) then
      let* z := idx (rsupers rs) (sb + 1) in Ok (z <=? rank)
    else Ok false in
  if go then
    match fuel with
    | O => Diverge
    | S fuel => search_super0_lin fuel rs rank (sb + 1)
    end
  else Ok sb.
(** select.rs 165-186 *)
Definition search_super_block0 (rs : rsvec) (sb rank : N) : res N :=
  let* e := idx (rsel rs) (rank / SELECT_BLOCK_SIZE + 1) in
  let* sb := search_super0_bin (S (N.to_nat (fst e))) rs rank sb (fst e) in
  search_super0_lin (S (length (rsupers rs))) rs rank sb.

(** select.rs 20-41 *)
Definition rs_select0_with (search : rsvec -> N -> N -> res N) (rs : rsvec) (rank : N) : res N :=
  if rrank0 rs <=? rank then Ok (rlen rs)
  else
    let* e := idx (rsel rs) (rank / SELECT_BLOCK_SIZE) in
    let sb := fst e in
    let* go :=
      if sb + 1 <? lenN (rsupers rs) then
        let* z := idx (rsupers rs) (sb + 1) in Ok (z <=? rank)
      else Ok false in
    let* sb := if go then search_super_block0 rs sb rank else Ok sb in
    let* z := idx (rsupers rs) sb in
    let* rank := sub rank z in
    let* bi := search rs rank (sb * (SUPER_BLOCK_SIZE / BLOCK_SIZE)) in
    let* z := idx (rblocks rs) bi in
    let* rank := sub rank z in
    search_word_in_block0 rs rank bi.
Definition rs_select0 : rsvec -> N -> res N := rs_select0_with search_block0.

(** select.rs 318-340 *)
Definition search_block1_step (rs : rsvec) (rank base bi boundary : N) : res N :=
  if bi + boundary <? lenN (rblocks rs) then
    let* b := idx (rblocks rs) (bi + boundary) in
    let* rel := sub (bi + boundary) base in
    let* ones := sub (rel * BLOCK_SIZE) b in
    Ok (if ones <=? rank then bi + boundary else bi)
  else Ok bi.
Definition search_block1 (rs : rsvec) (rank base bi : N) : res N :=
  forM [8; 4; 2; 1] bi (search_block1_step rs rank base).

(** select.rs 351-377 *)
Definition search_word_in_block1 (rs : rsvec) (rank bi : N) : res N :=
  let* r := forM_ret (range 0 7) (rank, 0) (fun '(rank, counter) n =>
    let* word := idx (rdata rs) (bi * BLOCK_SIZE / 64 + n) in
    if popcount word <=? rank then
      let* rank' := sub rank (popcount word) in
      Ok (inl (rank', counter + 64))
    else
      let* t := pdep_select rank word in
      Ok (inr (bi * BLOCK_SIZE + counter + t))) in
  match r with
  | inr p => Ok p
  | inl (rank, counter) =>
      let* word := idx (rdata rs) (bi * BLOCK_SIZE / 64 + 7) in
      let* t := pdep_select rank word in
      Ok (bi * BLOCK_SIZE + counter + t)
  end.

(** select.rs 391-399 *)
Fixpoint search_super1_bin (fuel : nat) (rs : rsvec) (rank sb ub : N) : res N :=
  let* d := sub ub sb in
  if 8 <? d then
    match fuel with
    | O => Diverge
    | S fuel =>
        let middle := sb + d / 2 in
        let* z := idx (rsupers rs) middle in
        let* ones := sub ((middle + 1) * SUPER_BLOCK_SIZE) z in
        if ones <=? rank then search_super1_bin fuel rs rank middle ub
        else search_super1_bin fuel rs rank sb middle
    end
  else Ok sb.
(** select.rs 401-406 *)
Fixpoint search_super1_lin (fuel : nat) (rs : rsvec) (rank sb : N) : res N :=
  let* go :=
    if sb + 1 <? lenN (rsupers rs) then
      let* z := idx (rsupers rs) (sb + 1) in
      let* ones := sub ((sb + 1) * SUPER_BLOCK_SIZE) z in
      Ok (ones <=? rank)
    else Ok false in
  if go then
    match fuel with
    | O => Diverge
    | S fuel => search_super1_lin fuel rs rank (sb + 1)
    end
  else Ok sb.
(** select.rs 387-409 *)
Definition search_super_block1 (rs : rsvec) (sb rank : N) : res N :=
  let* e := idx (rsel rs) (rank / SELECT_BLOCK_SIZE + 1) in
  let* sb := search_super1_bin (S (N.to_nat (snd e))) rs rank sb (snd e) in
  search_super1_lin (S (length (rsupers rs))) rs rank sb.

(** select.rs 195-222 *)
Definition rs_select1_with (search : rsvec -> N -> N -> N -> res N) (rs : rsvec) (rank : N) : res N :=
  if rrank1 rs <=? rank then Ok (rlen rs)
  else
    let* e := idx (rsel rs) (rank / SELECT_BLOCK_SIZE) in
    let sb := snd e in
    let* go :=
      if sb + 1 <? lenN (rsupers rs) then
        let* z := idx (rsupers rs) (sb + 1) in
        let* ones := sub ((sb + 1) * SUPER_BLOCK_SIZE) z in
        Ok (ones <=? rank)
      else Ok false in
    let* sb := if go then search_super_block1 rs sb rank else Ok sb in
    let* z := idx (rsupers rs) sb in
    let* ones := sub (sb * SUPER_BLOCK_SIZE) z in
    let* rank := sub rank ones in
    let base := sb * (SUPER_BLOCK_SIZE / BLOCK_SIZE) in
    let* bi := search rs rank base base in
    let* z := idx (rblocks rs) bi in
    let* rel := sub bi base in
    let* ones := sub (rel * BLOCK_SIZE) z in
    let* rank := sub rank ones in
    search_word_in_block1 rs rank bi.
Definition rs_select1 : rsvec -> N -> res N := rs_select1_with search_block1.

(** select.rs 59-83, the AVX-512 variant. [_mm256_loadu_epi16] reads 16 lanes of 16 bits: reading past
    the end of the vector would be undefined behaviour and is a panic here. A lane of the mask is 0
    iff the lane is at most the rank, whose cast [as i16] keeps the low 16 bits. *)
Definition U16 : N := 2 ^ 16.
Definition search_block0_simd (rs : rsvec) (rank bi : N) : res N :=
  if bi + SUPER_BLOCK_SIZE / BLOCK_SIZE <? lenN (rblocks rs) then
    let* blocks := slice_chk (rblocks rs) bi (bi + 16) in
    let mask_zeros := lenN (filter (fun lane => lane <=? rank mod U16) blocks) in
    let* _ := assert (0 <? mask_zeros) in
    let* k := sub mask_zeros 1 in
    Ok (bi + k)
  else search_block0 rs rank bi.
(** select.rs 241-294; the lane-wise subtraction wraps. *)
Definition search_block1_simd (rs : rsvec) (rank base bi : N) : res N :=
  if bi + 16 <? lenN (rblocks rs) then
    let* blocks := slice_chk (rblocks rs) bi (bi + 16) in
    let ones := map (fun '(i, z) => (i * BLOCK_SIZE + U16 - z) mod U16) (combine (range 0 16) blocks) in
    let mask_zeros := lenN (filter (fun lane => lane <=? rank mod U16) ones) in
    let* _ := assert (0 <? mask_zeros) in
    let* k := sub mask_zeros 1 in
    Ok (bi + k)
  else search_block1 rs rank base bi.
Definition rs_select0_simd : rsvec -> N -> res N := rs_select0_with search_block0_simd.
Definition rs_select1_simd : rsvec -> N -> res N := rs_select1_with search_block1_simd.

(** mod.rs 469-495 *)
Definition rs_full_equals (a b : rsvec) : res bool :=
  if negb (rlen a =? rlen b) then Ok false
  else if negb (rrank0 a =? rrank0 b) || negb (rrank1 a =? rrank1 b) then Ok false
  else
    let* x := slice_chk (rdata a) 0 (rlen a / 64) in
    let* y := slice_chk (rdata b) 0 (rlen b / 64) in
    if existsb (fun '(p, q) => negb (p =? q)) (combine x y) then Ok false
    else if negb (rlen a mod 64 =? 0) then
      let* x := idx (rdata a) (rlen a / 64) in
      let* y := idx (rdata b) (rlen a / 64) in
      Ok (N.land x (lowmask (rlen a mod 64)) =? N.land y (lowmask (rlen b mod 64)))
    else Ok true.
