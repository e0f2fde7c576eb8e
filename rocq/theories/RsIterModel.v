(** * Model of the select iterators (src/bit_vec/fast_rs_vec/iter.rs) and of the equality tests of
    [RsVec] that use them (mod.rs).

    [SelectIter] and [SelectIntoIter] are two expansions of the macro [gen_iter_impl]; they differ
    only in owning the vector, so there is one model. [ZERO] is a boolean argument. *)
From Verif Require Import Base BitVecModel RsVecModel IterSpec.

(** iter.rs 462-479 (and 515-532); the vector is a separate argument of every function. *)
Record sel_iter := mkit {
  it_rank : N;
  it_back : option N;
  it_sb : N;
  it_sbb : N;
  it_b : N;
  it_bb : N
}.

(** iter.rs 79-106 *)
Definition sel_new (zero : bool) (rs : rsvec) : res sel_iter :=
  if rlen rs =? 0 then Ok (mkit 0 None 0 0 0 0)
  else
    let x := if zero then rrank0 rs else rrank1 rs in
    let* sbb := sub (lenN (rsupers rs)) 1 in
    let* bb := sub (lenN (rblocks rs)) 1 in
    Ok (mkit 0 (if 0 <? x then Some (x - 1) else None) 0 sbb 0 bb).

(** iter.rs 425-429 *)
Definition sel_len (it : sel_iter) : N :=
  match it_back it with Some x => x + 1 | None => 0 end - it_rank it.

(** iter.rs 109-155 *)
Definition select_next_0_with (search : rsvec -> N -> N -> res N) (rs : rsvec) (it : sel_iter) : res (sel_iter * option N) :=
  let rank := it_rank it in
  if (rrank0 rs <=? rank) || match it_back it with None => true | Some b => b <? rank end
  then Ok (it, None)
  else
    let* e := idx (rsel rs) (rank / SELECT_BLOCK_SIZE) in
    let* cached :=
      if it_sb it + 1 <? lenN (rsupers rs) then
        let* z := idx (rsupers rs) (it_sb it + 1) in Ok (rank <? z)
      else Ok false in
    let* '(sb, rank, bi) :=
      if (cached : bool) then
        let* z := idx (rsupers rs) (it_sb it) in
        let* rank := sub rank z in
        let* hit :=
          if it_b it mod (SUPER_BLOCK_SIZE / BLOCK_SIZE) =? 15 then Ok true
          else if it_b it + 1 <? lenN (rblocks rs) then
            let* z := idx (rblocks rs) (it_b it + 1) in Ok (rank <? z)
          else Ok false in
        if (hit : bool) then
          let* z := idx (rblocks rs) (it_b it) in
          let* rank := sub rank z in
          Ok (it_sb it, rank, it_b it)
        else Ok (it_sb it, rank, 0)
      else
        let* sb := search_super_block0 rs (fst e) rank in
        let* z := idx (rsupers rs) sb in
        let* rank := sub rank z in
        Ok (sb, rank, 0) in
    let* '(b, rank, bi) :=
      if bi =? 0 then
        let* bi := search rs rank (sb * (SUPER_BLOCK_SIZE / BLOCK_SIZE)) in
        let* z := idx (rblocks rs) bi in
        let* rank := sub rank z in
        Ok (bi, rank, bi)
      else Ok (it_b it, rank, bi) in
    let* p := search_word_in_block0 rs rank bi in
    Ok (mkit (it_rank it + 1) (it_back it) sb (it_sbb it) b (it_bb it), Some p).

(** iter.rs 158-200 *)
Definition select_next_0_back_with (search : rsvec -> N -> N -> res N) (rs : rsvec) (it : sel_iter) : res (sel_iter * option N) :=
  match it_back it with
  | None => Ok (it, None)
  | Some rank0 =>
  let rank := rank0 in
  if rank <? it_rank it then Ok (it, None)
  else
    let* e := idx (rsel rs) (rank / SELECT_BLOCK_SIZE) in
    let* z := idx (rsupers rs) (it_sbb it) in
    let* '(sb, rank, bi) :=
      if z <? rank then
        let* rank := sub rank z in
        let* z := idx (rblocks rs) (it_bb it) in
        if z <=? rank then
          let* rank := sub rank z in
          Ok (it_sbb it, rank, it_bb it)
        else Ok (it_sbb it, rank, 0)
      else
        let* sb := search_super_block0 rs (fst e) rank in
        let* z := idx (rsupers rs) sb in
        let* rank := sub rank z in
        Ok (sb, rank, 0) in
    let* '(b, rank, bi) :=
      if bi =? 0 then
        let* bi := search rs rank (sb * (SUPER_BLOCK_SIZE / BLOCK_SIZE)) in
        let* z := idx (rblocks rs) bi in
        let* rank := sub rank z in
        Ok (bi, rank, bi)
      else Ok (it_bb it, rank, bi) in
    let* p := search_word_in_block0 rs rank bi in
    Ok (mkit (it_rank it) (if 0 <? rank0 then Some (rank0 - 1) else None)
             (it_sb it) sb (it_b it) b, Some p)
  end.

(** iter.rs 204-264 *)
Definition select_next_1_with (search : rsvec -> N -> N -> N -> res N) (rs : rsvec) (it : sel_iter) : res (sel_iter * option N) :=
  let rank := it_rank it in
  if (rrank1 rs <=? rank) || match it_back it with None => true | Some b => b <? rank end
  then Ok (it, None)
  else
    let* e := idx (rsel rs) (rank / SELECT_BLOCK_SIZE) in
    let* cached :=
      if it_sb it + 1 <? lenN (rsupers rs) then
        let* z := idx (rsupers rs) (it_sb it + 1) in
        let* o := sub ((it_sb it + 1) * SUPER_BLOCK_SIZE) z in
        Ok (rank <? o)
      else Ok false in
    let* '(sb, rank, bi) :=
      if (cached : bool) then
        let base := it_sb it * (SUPER_BLOCK_SIZE / BLOCK_SIZE) in
        let* z := idx (rsupers rs) (it_sb it) in
        let* o := sub (it_sb it * SUPER_BLOCK_SIZE) z in
        let* rank := sub rank o in
        let* hit :=
          if it_b it mod (SUPER_BLOCK_SIZE / BLOCK_SIZE) =? 15 then Ok true
          else if it_b it + 1 <? lenN (rblocks rs) then
            let* rel := sub (it_b it + 1) base in
            let* z := idx (rblocks rs) (it_b it + 1) in
            let* o := sub (rel * BLOCK_SIZE) z in
            Ok (rank <? o)
          else Ok false in
        if (hit : bool) then
          let* rel := sub (it_b it) base in
          let* z := idx (rblocks rs) (it_b it) in
          let* o := sub (rel * BLOCK_SIZE) z in
          let* rank := sub rank o in
          Ok (it_sb it, rank, it_b it)
        else Ok (it_sb it, rank, 0)
      else
        let* sb := search_super_block1 rs (snd e) rank in
        let* z := idx (rsupers rs) sb in
        let* o := sub (sb * SUPER_BLOCK_SIZE) z in
        let* rank := sub rank o in
        Ok (sb, rank, 0) in
    let* '(b, rank, bi) :=
      if bi =? 0 then
        let base := sb * (SUPER_BLOCK_SIZE / BLOCK_SIZE) in
        let* bi := search rs rank base base in
        let* rel := sub bi base in
        let* z := idx (rblocks rs) bi in
        let* o := sub (rel * BLOCK_SIZE) z in
        let* rank := sub rank o in
        Ok (bi, rank, bi)
      else Ok (it_b it, rank, bi) in
    let* p := search_word_in_block1 rs rank bi in
    Ok (mkit (it_rank it + 1) (it_back it) sb (it_sbb it) b (it_bb it), Some p).

(** iter.rs 268-324 *)
Definition select_next_1_back_with (search : rsvec -> N -> N -> N -> res N) (rs : rsvec) (it : sel_iter) : res (sel_iter * option N) :=
  match it_back it with
  | None => Ok (it, None)
  | Some rank0 =>
  let rank := rank0 in
  if rank <? it_rank it then Ok (it, None)
  else
    let* e := idx (rsel rs) (rank / SELECT_BLOCK_SIZE) in
    let* z := idx (rsupers rs) (it_sbb it) in
    let* o := sub (it_sbb it * SUPER_BLOCK_SIZE) z in
    let* '(sb, rank, bi) :=
      if o <? rank then
        let base := it_sbb it * (SUPER_BLOCK_SIZE / BLOCK_SIZE) in
        let* rank := sub rank o in
        let* rel := sub (it_bb it) base in
        let* z := idx (rblocks rs) (it_bb it) in
        let* o := sub (rel * BLOCK_SIZE) z in
        if o <=? rank then
          let* rank := sub rank o in
          Ok (it_sbb it, rank, it_bb it)
        else Ok (it_sbb it, rank, 0)
      else
        let* sb := search_super_block1 rs (snd e) rank in
        let* z := idx (rsupers rs) sb in
        let* o := sub (sb * SUPER_BLOCK_SIZE) z in
        let* rank := sub rank o in
        Ok (sb, rank, 0) in
    let* '(b, rank, bi) :=
      if bi =? 0 then
        let base := sb * (SUPER_BLOCK_SIZE / BLOCK_SIZE) in
        let* bi := search rs rank base base in
        let* rel := sub bi base in
        let* z := idx (rblocks rs) bi in
        let* o := sub (rel * BLOCK_SIZE) z in
        let* rank := sub rank o in
        Ok (bi, rank, bi)
      else Ok (it_bb it, rank, bi) in
    let* p := search_word_in_block1 rs rank bi in
    Ok (mkit (it_rank it) (if 0 <? rank0 then Some (rank0 - 1) else None)
             (it_sb it) sb (it_b it) b, Some p)
  end.

Definition select_next_0 := select_next_0_with search_block0.
Definition select_next_0_back := select_next_0_back_with search_block0.
Definition select_next_1 := select_next_1_with search_block1.
Definition select_next_1_back := select_next_1_back_with search_block1.

(** iter.rs 364-370, 406-412 *)
Definition sel_next (zero : bool) (rs : rsvec) (it : sel_iter) : res (sel_iter * option N) :=
  if zero then select_next_0 rs it else select_next_1 rs it.
Definition sel_next_back (zero : bool) (rs : rsvec) (it : sel_iter) : res (sel_iter * option N) :=
  if zero then select_next_0_back rs it else select_next_1_back rs it.
(** The same with the AVX-512 block search. *)
Definition sel_next_simd (zero : bool) (rs : rsvec) (it : sel_iter) : res (sel_iter * option N) :=
  if zero then select_next_0_with search_block0_simd rs it else select_next_1_with search_block1_simd rs it.
Definition sel_next_back_simd (zero : bool) (rs : rsvec) (it : sel_iter) : res (sel_iter * option N) :=
  if zero then select_next_0_back_with search_block0_simd rs it
  else select_next_1_back_with search_block1_simd rs it.

Definition with_rank (it : sel_iter) (r : N) : sel_iter :=
  mkit r (it_back it) (it_sb it) (it_sbb it) (it_b it) (it_bb it).
Definition with_back (it : sel_iter) (r : option N) : sel_iter :=
  mkit (it_rank it) r (it_sb it) (it_sbb it) (it_b it) (it_bb it).

(** iter.rs 332-341; the flag is [Ok]/[Err]. *)
Definition advance_by (it : sel_iter) (n : N) : sel_iter * bool :=
  if n <=? sel_len it then (with_rank it (it_rank it + n), true)
  else (with_rank it (it_rank it + sel_len it), false).

(** iter.rs 349-358; the subtraction is checked. *)
Definition back_minus (b : option N) (n : N) : res (option N) :=
  match b with
  | None => Ok None
  | Some x => let* y := sub x n in Ok (Some y)
  end.
Definition advance_back_by (it : sel_iter) (n : N) : res (sel_iter * bool) :=
  if n <=? sel_len it then
    let* b := back_minus (it_back it) n in Ok (with_back it b, true)
  else
    let* b := back_minus (it_back it) (sel_len it) in Ok (with_back it b, false).

(** iter.rs 396-402 *)
Definition sel_nth (zero : bool) (rs : rsvec) (it : sel_iter) (n : N) : res (sel_iter * option N) :=
  let '(it, ok) := advance_by it n in
  if (ok : bool) then sel_next zero rs it else Ok (it, None).
(** iter.rs 414-420 *)
Definition sel_nth_back (zero : bool) (rs : rsvec) (it : sel_iter) (n : N) : res (sel_iter * option N) :=
  let* '(it, ok) := advance_back_by it n in
  if (ok : bool) then sel_next_back zero rs it else Ok (it, None).
(** iter.rs 383-394 *)
Definition sel_last (zero : bool) (rs : rsvec) (it : sel_iter) : res (option N) :=
  if sel_len it =? 0 then Ok None
  else
    let '(it, ok) := advance_by it (sel_len it - 1) in
    if (ok : bool) then let* '(_, o) := sel_next zero rs it in Ok o else Ok None.
(** iter.rs 372-381 *)
Definition sel_count (it : sel_iter) : N := sel_len it.

Definition sel_step (zero : bool) (rs : rsvec) (it : sel_iter) (op : iter_op) : res (sel_iter * iter_out N) :=
  match op with
  | INext => let* '(it, o) := sel_next zero rs it in Ok (it, OItem o)
  | INextBack => let* '(it, o) := sel_next_back zero rs it in Ok (it, OItem o)
  | INth n => let* '(it, o) := sel_nth zero rs it n in Ok (it, OItem o)
  | INthBack n => let* '(it, o) := sel_nth_back zero rs it n in Ok (it, OItem o)
  | ILen => Ok (it, OLen (sel_len it))
  end.

(** mod.rs 436-456: the loop over [iter.enumerate()]. *)
Fixpoint sparse_loop (fuel : nat) (zero : bool) (a b : rsvec) (it : sel_iter) (rank : N) : res bool :=
  let* '(it, o) := sel_next zero a it in
  match o with
  | None => Ok true
  | Some p =>
      let* w := rs_get_unchecked b p in
      if negb (Bool.eqb (w =? 0) zero) then Ok false
      else
        let* r := rs_rank b zero p in
        if negb (r =? rank) then Ok false
        else match fuel with
             | O => Diverge
             | S fuel => sparse_loop fuel zero a b it (rank + 1)
             end
  end.
Definition rs_sparse_equals (zero : bool) (a b : rsvec) : res bool :=
  if negb (rlen a =? rlen b) then Ok false
  else if negb (rrank0 a =? rrank0 b) || negb (rrank1 a =? rrank1 b) then Ok false
  else
    let* it := sel_new zero a in
    sparse_loop (N.to_nat (rlen a)) zero a b it 0.

(** mod.rs 525-535 *)
Definition rs_eq (a b : rsvec) : res bool :=
  if 4000000 <? rlen a then
    if rrank0 a <? rrank1 a then rs_sparse_equals true a b else rs_sparse_equals false a b
  else rs_full_equals a b.
