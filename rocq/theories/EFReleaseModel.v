(** * Release-build versions of the Elias-Fano queries (src/elias_fano/mod.rs).

    All arithmetic wraps modulo 2^64, [isize] arithmetic included: the casts between [isize] and
    [usize] keep the bits. The direction -1 is a wrapping subtraction. Shifts by the width of the lower
    part are by less than 64. Indexing is checked in both builds. The variable [cursor] is the absolute value of the Rust
    variable, as in [EFModel.v]. Simplification: the binary search and the loop over equal elements get
    65 more steps than their interval has elements. *)
From Verif Require Import Base BitVecModel RsVecModel EFModel GenIterModel ReleaseModel UncheckedReleaseModel.

Local Notation wsub := wrapping_sub.
Local Notation wadd := wrapping_add.
Local Notation wmul := wrapping_mul.

(** [lower_vec.get_bits_unchecked(i * lower_len, lower_len)] *)
Definition ef_low_rel (e : ef) (i : N) : res N := bv_get_bits_unchecked (ef_lower e) (wmul i (ef_w e)) (ef_w e).

(** [x + direction * k] *)
Definition dir_rel (up : bool) (x k : N) : N := if up then wadd x k else wsub x k.

(** mod.rs 338-348 *)
Fixpoint ef_back_rel (fuel : nat) (e : ef) (ql cursor : N) : res N :=
  match fuel with
  | O => Diverge
  | S fuel =>
      let c := wsub cursor 1 in
      let* l := ef_low_rel e c in
      if l =? ql then ef_back_rel fuel e ql c else Ok cursor
  end.

(** mod.rs 323-358 *)
Fixpoint ef_bin_rel (fuel : nat) (index up : bool) (e : ef) (ql qmu : N) (lb ub lc : N) : res (N + (N * N * N)) :=
  if lb <? wsub ub 1 then
    match fuel with
    | O => Diverge
    | S fuel =>
        let middle := wadd lb (N.shiftr (wsub ub lb) 1) in
        let* mc := ef_low_rel e middle in
        if ql <? mc then ef_bin_rel fuel index up e ql qmu lb middle (if up then lc else mc)
        else if mc =? ql then
          if index then let* c := ef_back_rel (65 + N.to_nat middle) e ql middle in Ok (inl c)
          else Ok (inl (wadd (N.lor qmu mc) (ef_zero e)))
        else ef_bin_rel fuel index up e ql qmu middle ub (if up then mc else lc)
    end
  else Ok (inr (lb, ub, lc)).

(** mod.rs 302-389 *)
Definition ef_binary_rel (index up : bool) (e : ef) (sil qu ql qmu cursor lc : N) : res ef_out :=
  let* block_end :=
    if up then
      let* s := rs_select0 (ef_upper e) (wadd qu 1) in Ok (wsub (wsub s qu) 2)
    else let* s := rs_select0 (ef_upper e) qu in Ok (wsub s qu) in
  let cur := dir_rel up sil cursor in
  let start := if up then wsub cur 1 else wadd cur 1 in
  let '(lb, ub) := if up then (start, block_end) else (block_end, start) in
  let* r := ef_bin_rel (65 + N.to_nat ub) index up e ql qmu lb ub lc in
  match r with
  | inl v => Ok (Ret v)
  | inr (lb, ub, lc) =>
      let fb := if up then lb else ub in
      let* o :=
        if if up then fb <? block_end else block_end <? fb then
          let* cc := ef_low_rel e (dir_rel up fb 1) in
          if nye index up cc ql then
            if index then Ok (Some (wadd (wadd fb 1) 1))
            else Ok (Some (wadd (N.lor qmu cc) (ef_zero e)))
          else Ok None
        else Ok None in
      match o with
      | Some v => Ok (Ret v)
      | None => if index then Ok (Cont (wsub (wadd fb 1) sil) lc) else Ok (Cont cursor lc)
      end
  end.

(** mod.rs 266-391 *)
Fixpoint ef_linear_rel (fuel : nat) (index up : bool) (e : ef) (siu sil qu ql qmu cursor lc : N) : res ef_out :=
  let* b := rs_get_unchecked (ef_upper e) (dir_rel up siu (cursor + 1)) in
  if 0 <? b then
    match fuel with
    | O => Diverge
    | S fuel =>
        let* nc := ef_low_rel e (dir_rel up sil cursor) in
        if if up then ql <? nc else nc <? ql then
          if index then Ok (Ret (wadd sil cursor)) else Ok (Ret (wadd (N.lor qmu lc) (ef_zero e)))
        else if nc =? ql then
          if index then Ok (Ret (wadd sil cursor)) else Ok (Ret (wadd (N.lor qmu nc) (ef_zero e)))
        else if cursor + 1 =? 4 then ef_binary_rel index up e sil qu ql qmu (cursor + 1) nc
        else ef_linear_rel fuel index up e siu sil qu ql qmu (cursor + 1) nc
    end
  else Ok (Cont cursor lc).

(** mod.rs 218-411 *)
Definition ef_search_rel (index up : bool) (e : ef) (siu sil query qu ql qmu : N) : res N :=
  let* b := rs_get_unchecked (ef_upper e) (dir_rel up siu 1) in
  let* hit :=
    if 0 <? b then
      let* lc := ef_low_rel e sil in
      if nye index up (N.lor qmu lc) query then
        let* o := ef_linear_rel 4 index up e siu sil qu ql qmu 1 lc in
        match o with
        | Ret v => Ok (Some v)
        | Cont cursor lc =>
            if index then Ok (Some (wadd sil cursor)) else Ok (Some (wadd (N.lor qmu lc) (ef_zero e)))
        end
      else Ok None
    else Ok None in
  match hit with
  | Some v => Ok v
  | None =>
      if index then Ok sil
      else ef_get_unchecked_rel e (if up then wsub sil 1 else wadd sil 1)
  end.

(** mod.rs 151-157 *)
Definition ef_get_rel (e : ef) (i : N) : res (option N) :=
  if ef_n e <=? i then Ok None else let* v := ef_get_unchecked_rel e i in Ok (Some v).

(** mod.rs 425-455 and 200-207 *)
Definition ef_predecessor_unchecked_rel (e : ef) (n : N) : res N :=
  if ef_max e <? n then ef_get_unchecked_rel e (wsub (ef_n e) 1)
  else
    let n := wsub n (ef_zero e) in
    let uq := N.shiftr n (ef_w e) in
    let* siu := rs_select0 (ef_upper e) uq in
    ef_search_rel false true e siu (wsub siu uq) n uq (N.land n (lowmask (ef_w e))) (shl64 uq (ef_w e)).
Definition ef_predecessor_rel (e : ef) (n : N) : res (option N) :=
  if (n <? ef_zero e) || (ef_n e =? 0) then Ok None
  else let* v := ef_predecessor_unchecked_rel e n in Ok (Some v).

(** mod.rs 486-516 and 465-472 *)
Definition ef_successor_unchecked_rel (e : ef) (n : N) : res N :=
  if n <? ef_zero e then ef_get_unchecked_rel e 0
  else
    let n := wsub n (ef_zero e) in
    let uq := N.shiftr n (ef_w e) in
    let* siu := rs_select0 (ef_upper e) (wadd uq 1) in
    ef_search_rel false false e siu (wsub (wsub siu uq) 2) n uq (N.land n (lowmask (ef_w e))) (shl64 uq (ef_w e)).
Definition ef_successor_rel (e : ef) (n : N) : res (option N) :=
  if (ef_max e <? n) || (ef_n e =? 0) then Ok None
  else let* v := ef_successor_unchecked_rel e n in Ok (Some v).

(** mod.rs 537-574 *)
Definition ef_delta_rel (e : ef) (i : N) : res (option N) :=
  if ef_n e <=? i then Ok None
  else
    let* ui := rs_select1 (ef_upper e) i in
    let* b := rs_get_unchecked (ef_upper e) (wsub ui 1) in
    if b =? 1 then
      let* x := ef_low_rel e i in
      let* y := ef_low_rel e (wsub i 1) in
      Ok (Some (wsub x y))
    else
      let qup := shl64 (wsub (wsub ui i) 1) (ef_w e) in
      let* x := ef_low_rel e i in
      let qn := N.lor qup x in
      if i =? 0 then Ok (Some (wadd qn (ef_zero e)))
      else
        let j := wsub i 1 in
        let* lui := rs_select1 (ef_upper e) j in
        let leu := wsub (wsub lui j) 1 in
        let* y := ef_low_rel e j in
        Ok (Some (wsub qn (N.lor (shl64 leu (ef_w e)) y))).

(** mod.rs 579-602 *)
Definition ef_rank_rel (e : ef) (v : N) : res N :=
  if (ef_max e <? v) || (ef_n e =? 0) then Ok (ef_n e)
  else if v <? ef_zero e then Ok 0
  else
    let v := wsub v (ef_zero e) in
    let upper := N.shiftr v (ef_w e) in
    let* qb := rs_select0 (ef_upper e) upper in
    ef_search_rel true true e qb (wsub qb upper) v upper (N.land v (lowmask (ef_w e))) (shl64 upper (ef_w e)).

(** mod.rs 113-121: one round of the loop of [from_slice]; nothing but the indexing is checked. *)
Definition ef_push_rel (w zero : N) (st : bitvec * bitvec) (iw : N * N) : res (bitvec * bitvec) :=
  let '(up, low) := st in
  let '(i, word) := iw in
  let word := wsub word zero in
  let upper := N.shiftr word w in
  let lower := N.land word (lowmask w) in
  let* up := bv_flip_bit_unchecked up (wadd (wadd upper i) 1) in
  let* low := bv_append_bits_unchecked low lower w in
  Ok (up, low).

(** mod.rs 81-134 without the [debug_assert]; [w] is [lower_width]. Simplification: [RsVec::from_bit_vec] is that of the
    debug build. It never overflows for the vectors it gets here. *)
Definition ef_from_slice_rel (w : N) (data : list N) : res ef :=
  if lenN data =? 0 then
    let* u := rs_from_bit_vec bv_new in Ok (mkef u bv_new 0 0 0 0)
  else
    let* zero := idx data 0 in
    let* last := idx data (lenN data - 1) in
    let bound := wsub last zero in
    let* _ := assert (w <? 64) in
    let* '(up, low) := forM (combine (range 0 (lenN data)) data)
      (bv_from_zeros (wadd (wadd 2 (lenN data)) (N.shiftr bound w)), bv_new) (ef_push_rel w zero) in
    let* u := rs_from_bit_vec up in
    Ok (mkef u low zero last w (lenN data)).
