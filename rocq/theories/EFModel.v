(** * Model of [EliasFanoVec] (src/elias_fano/mod.rs) and its iterators
    (src/util/elias_fano_iter.rs). *)
From Verif Require Import Base Spec BaseFacts BitVecModel RsVecModel IterSpec RsIterModel GenIterModel.

(** elias_fano/mod.rs 60-67 *)
Record ef := mkef {
  ef_upper : rsvec;
  ef_lower : bitvec;
  ef_zero : N;
  ef_max : N;
  ef_w : N;
  ef_n : N
}.

(** The [debug_assert!] of [from_slice], 93-96. *)
Fixpoint windows_sorted (l : list N) : bool :=
  match l with
  | a :: (b :: _) as r => (a <=? b) && windows_sorted r
  | _ => true
  end.

(** mod.rs 106-109 with exact logarithms. The code computes in [f64] ([ef_width_f64] in [FloatModel], see
    C101), where rounding can change the result, so [ef_from_slice] takes the width as an argument and the theorems hold for every
    width below 64. *)
Definition ef_width (data : list N) : N :=
  let bound := nthN 0 data (lenN data - 1) - nthN 0 data 0 in
  N.max (N.log2_up (N.max bound 2)) (N.log2_up (lenN data + 2)) - N.log2_up (N.max (lenN data) 2).

(** mod.rs 116-124: one iteration of the loop over [data.iter().enumerate()]. *)
Definition ef_push (w zero : N) (st : bitvec * bitvec) (iw : N * N) : res (bitvec * bitvec) :=
  let '(up, low) := st in
  let '(i, word) := iw in
  let* word := sub word zero in
  let upper := N.shiftr word w in
  let lower := N.land word (lowmask w) in
  let* up := bv_flip_bit_unchecked up (upper + i + 1) in
  let* low := bv_append_bits_unchecked low lower w in
  Ok (up, low).

(** mod.rs 81-134; [w] is [lower_width]. *)
Definition ef_from_slice (w : N) (data : list N) : res ef :=
  if lenN data =? 0 then
    let* u := rs_from_bit_vec bv_new in Ok (mkef u bv_new 0 0 0 0)
  else
    let* _ := assert (windows_sorted data) in
    let* zero := idx data 0 in
    let* last := idx data (lenN data - 1) in
    let* bound := sub last zero in
    let* _ := assert (w <? 64) in
    let* '(up, low) := forM (combine (range 0 (lenN data)) data)
      (bv_from_zeros (2 + lenN data + N.shiftr bound w), bv_new) (ef_push w zero) in
    let* u := rs_from_bit_vec up in
    Ok (mkef u low zero last w (lenN data)).

(** The recurring [self.lower_vec.get_bits_unchecked(i * self.lower_len, self.lower_len)]. *)
Definition ef_low (e : ef) (i : N) : res N := bv_get_bits_unchecked (ef_lower e) (i * ef_w e) (ef_w e).

(** mod.rs 184-190 *)
Definition ef_get_unchecked (e : ef) (i : N) : res N :=
  let* s := rs_select1 (ef_upper e) i in
  let* s := sub s i in
  let* upper := sub s 1 in
  let* lower := ef_low e i in
  let* hi := shl64_chk upper (ef_w e) in
  add64 (N.lor hi lower) (ef_zero e).

(** mod.rs 151-157 and 171-173 *)
Definition ef_get (e : ef) (i : N) : res (option N) :=
  if ef_n e <=? i then Ok None else let* v := ef_get_unchecked e i in Ok (Some v).
Definition ef_select (e : ef) (rank : N) : res (option N) := ef_get e rank.

(** [x + direction * k] in [isize]. A negative result would be cast to a huge index and panic, so
    it is a panic here. *)
Definition dir (up : bool) (x k : N) : res N := if up then Ok (x + k) else sub x k.

(** [not_yet_enough], mod.rs 232-245 *)
Definition nye (index up : bool) (a b : N) : bool :=
  if index then (if up then a <? b else b <? a) else (if up then a <=? b else b <=? a).

(** Outcome of the searches below: an early [return], or the loop ended with these variables. *)
Inductive ef_out := Ret (v : N) | Cont (cursor lower_candidate : N).

(** mod.rs 338-348: the loop stepping back over equal elements ([INDEX] is only instantiated with
    [UPWARD]). [cursor - 1] below zero would be cast to a huge index. *)
Fixpoint ef_back (fuel : nat) (e : ef) (ql cursor : N) : res N :=
  match fuel with
  | O => Diverge
  | S fuel =>
      let* c := sub cursor 1 in
      let* l := ef_low e c in
      if l =? ql then ef_back fuel e ql c else Ok cursor
  end.

(** mod.rs 323-358: the binary search. [inl] is an early return, [inr] the final variables. *)
Fixpoint ef_bin (fuel : nat) (index up : bool) (e : ef) (ql qmu : N) (lb ub lc : N) : res (N + (N * N * N)) :=
  let* u1 := sub ub 1 in
  if lb <? u1 then
    match fuel with
    | O => Diverge
    | S fuel =>
        let* d := sub ub lb in
        let middle := lb + N.shiftr d 1 in
        let* mc := ef_low e middle in
        if ql <? mc then ef_bin fuel index up e ql qmu lb middle (if up then lc else mc)
        else if mc =? ql then
          if index then let* c := ef_back (N.to_nat middle) e ql middle in Ok (inl c)
          else let* v := add64 (N.lor qmu mc) (ef_zero e) in Ok (inl v)
        else ef_bin fuel index up e ql qmu middle ub (if up then mc else lc)
    end
  else Ok (inr (lb, ub, lc)).

(** mod.rs 302-389: binary search after [BIN_SEARCH_THRESHOLD] linear steps; [cursor] is the
    absolute value of the Rust variable. *)
Definition ef_binary (index up : bool) (e : ef) (sil qu ql qmu cursor lc : N) : res ef_out :=
  let* block_end :=
    if up then
      let* s := rs_select0 (ef_upper e) (qu + 1) in
      let* s := sub s qu in sub s 2
    else let* s := rs_select0 (ef_upper e) qu in sub s qu in
  let* cur := dir up sil cursor in
  let* start := (if up then sub cur 1 else Ok (cur + 1)) in
  let '(lb, ub) := if up then (start, block_end) else (block_end, start) in
  let* r := ef_bin (N.to_nat ub) index up e ql qmu lb ub lc in
  match r with
  | inl v => Ok (Ret v)
  | inr (lb, ub, lc) =>
      let fb := if up then lb else ub in
      let* o :=
        if if up then fb <? block_end else block_end <? fb then
          let* p := dir up fb 1 in
          let* cc := ef_low e p in
          if nye index up cc ql then
            if index then Ok (Some (fb + 1 + 1))
            else let* v := add64 (N.lor qmu cc) (ef_zero e) in Ok (Some v)
          else Ok None
        else Ok None in
      match o with
      | Some v => Ok (Ret v)
      | None =>
          if index then let* c := sub (fb + 1) sil in Ok (Cont c lc)
          else Ok (Cont cursor lc)
      end
  end.

(** mod.rs 266-391: the linear search; fuel 4 suffices because of the threshold. *)
Fixpoint ef_linear (fuel : nat) (index up : bool) (e : ef) (siu sil qu ql qmu cursor lc : N) : res ef_out :=
  let* p := dir up siu (cursor + 1) in
  let* b := rs_get_unchecked (ef_upper e) p in
  if 0 <? b then
    match fuel with
    | O => Diverge
    | S fuel =>
        let* i := dir up sil cursor in
        let* nc := ef_low e i in
        if if up then ql <? nc else nc <? ql then
          if index then Ok (Ret (sil + cursor))
          else let* v := add64 (N.lor qmu lc) (ef_zero e) in Ok (Ret v)
        else if nc =? ql then
          if index then Ok (Ret (sil + cursor))
          else let* v := add64 (N.lor qmu nc) (ef_zero e) in Ok (Ret v)
        else if cursor + 1 =? 4 then ef_binary index up e sil qu ql qmu (cursor + 1) nc
        else ef_linear fuel index up e siu sil qu ql qmu (cursor + 1) nc
    end
  else Ok (Cont cursor lc).

(** mod.rs 218-411 *)
Definition ef_search (index up : bool) (e : ef) (siu sil query qu ql qmu : N) : res N :=
  let* p := dir up siu 1 in
  let* b := rs_get_unchecked (ef_upper e) p in
  let* hit :=
    if 0 <? b then
      let* lc := ef_low e sil in
      if nye index up (N.lor qmu lc) query then
        let* o := ef_linear 4 index up e siu sil qu ql qmu 1 lc in
        match o with
        | Ret v => Ok (Some v)
        | Cont cursor lc =>
            if index then Ok (Some (sil + cursor))
            else let* v := add64 (N.lor qmu lc) (ef_zero e) in Ok (Some v)
        end
      else Ok None
    else Ok None in
  match hit with
  | Some v => Ok v
  | None =>
      if index then Ok sil
      else
        let* i := (if up then sub sil 1 else Ok (sil + 1)) in
        ef_get_unchecked e i
  end.

(** mod.rs 425-455 *)
Definition ef_predecessor_unchecked (e : ef) (n : N) : res N :=
  if ef_max e <? n then let* i := sub (ef_n e) 1 in ef_get_unchecked e i
  else
    let* n := sub n (ef_zero e) in
    let uq := N.shiftr n (ef_w e) in
    let lq := N.land n (lowmask (ef_w e)) in
    let* siu := rs_select0 (ef_upper e) uq in
    let* sil := sub siu uq in
    let* ru := shl64_chk uq (ef_w e) in
    ef_search false true e siu sil n uq lq ru.
(** mod.rs 200-207 *)
Definition ef_predecessor (e : ef) (n : N) : res (option N) :=
  if (n <? ef_zero e) || (ef_n e =? 0) then Ok None
  else let* v := ef_predecessor_unchecked e n in Ok (Some v).

(** mod.rs 486-516 *)
Definition ef_successor_unchecked (e : ef) (n : N) : res N :=
  if n <? ef_zero e then ef_get_unchecked e 0
  else
    let* n := sub n (ef_zero e) in
    let uq := N.shiftr n (ef_w e) in
    let lq := N.land n (lowmask (ef_w e)) in
    let* siu := rs_select0 (ef_upper e) (uq + 1) in
    let* s := sub siu uq in
    let* sil := sub s 2 in
    let* ru := shl64_chk uq (ef_w e) in
    ef_search false false e siu sil n uq lq ru.
(** mod.rs 465-472 *)
Definition ef_successor (e : ef) (n : N) : res (option N) :=
  if (ef_max e <? n) || (ef_n e =? 0) then Ok None
  else let* v := ef_successor_unchecked e n in Ok (Some v).

(** mod.rs 537-574 *)
Definition ef_delta (e : ef) (i : N) : res (option N) :=
  if ef_n e <=? i then Ok None
  else
    let* ui := rs_select1 (ef_upper e) i in
    let* p := sub ui 1 in
    let* b := rs_get_unchecked (ef_upper e) p in
    if b =? 1 then
      let* x := ef_low e i in
      let* j := sub i 1 in
      let* y := ef_low e j in
      let* d := sub x y in
      Ok (Some d)
    else
      let* s := sub ui i in
      let* s := sub s 1 in
      let* qup := shl64_chk s (ef_w e) in
      let* x := ef_low e i in
      let qn := N.lor qup x in
      if i =? 0 then let* v := add64 qn (ef_zero e) in Ok (Some v)
      else
        let* j := sub i 1 in
        let* lui := rs_select1 (ef_upper e) j in
        let* s := sub lui j in
        let* leu := sub s 1 in
        let* hi := shl64_chk leu (ef_w e) in
        let* y := ef_low e j in
        let* d := sub qn (N.lor hi y) in
        Ok (Some d).

(** mod.rs 579-602 *)
Definition ef_rank (e : ef) (v : N) : res N :=
  if (ef_max e <? v) || (ef_n e =? 0) then Ok (ef_n e)
  else if v <? ef_zero e then Ok 0
  else
    let* v := sub v (ef_zero e) in
    let upper := N.shiftr v (ef_w e) in
    let lower := N.land v (lowmask (ef_w e)) in
    let* qb := rs_select0 (ef_upper e) upper in
    let* li := sub qb upper in
    let* hi := shl64_chk upper (ef_w e) in
    ef_search true true e qb li v upper lower hi.

(** ** Iterators. elias_fano_iter.rs 182-191 and 230-239; the vector is a separate argument. *)
Record ef_iter := mkei { ei_up : sel_iter; ei_gi : gen_iter }.

(** elias_fano_iter.rs 195-216 and 243-264 *)
Definition ef_iter_new (e : ef) : res ef_iter :=
  let* u := sel_new false (ef_upper e) in Ok (mkei u (gi_new (ef_n e))).

(** elias_fano_iter.rs 10-29 and 37-58: the index arithmetic is that of the generic iterator. *)
Definition ei_advance_by (e : ef) (it : ef_iter) (n : N) : res (option ef_iter) :=
  if n =? 0 then Ok (Some it)
  else
    let* o := gi_advance_by (ei_gi it) n in
    match o with
    | None => Ok None
    | Some gi =>
        let* '(u, x) := sel_nth false (ef_upper e) (ei_up it) (n - 1) in
        match x with None => Panic | Some _ => Ok (Some (mkei u gi)) end
    end.
Definition ei_advance_back_by (e : ef) (it : ef_iter) (n : N) : res (option ef_iter) :=
  if n =? 0 then Ok (Some it)
  else
    let* o := gi_advance_back_by (ei_gi it) n in
    match o with
    | None => Ok None
    | Some gi =>
        let* '(u, x) := sel_nth_back false (ef_upper e) (ei_up it) (n - 1) in
        match x with None => Panic | Some _ => Ok (Some (mkei u gi)) end
    end.

(** The value read at upper position [pos] and index [i], without [universe_zero]. *)
Definition ei_value (e : ef) (pos i : N) : res N :=
  let* s := sub pos i in
  let* upper := sub s 1 in
  let* lower := ef_low e i in
  let* hi := shl64_chk upper (ef_w e) in
  Ok (N.lor hi lower).

(** elias_fano_iter.rs 69-80 *)
Definition ei_next (e : ef) (it : ef_iter) : res (ef_iter * option N) :=
  let* '(u, x) := sel_next false (ef_upper e) (ei_up it) in
  match x with
  | None => Ok (mkei u (ei_gi it), None)
  | Some pos =>
      let* v := ei_value e pos (gi_index (ei_gi it)) in
      let* v := add64 v (ef_zero e) in
      Ok (mkei u (mkgi (gi_index (ei_gi it) + 1) (gi_back (ei_gi it))), Some v)
  end.

(** elias_fano_iter.rs 151-167 *)
Definition ei_next_back (e : ef) (it : ef_iter) : res (ef_iter * option N) :=
  let* '(u, x) := sel_next_back false (ef_upper e) (ei_up it) in
  match x with
  | None => Ok (mkei u (ei_gi it), None)
  | Some pos =>
      match gi_back (ei_gi it) with
      | None => Panic
      | Some b =>
          let* v := ei_value e pos b in
          let* v := add64 v (ef_zero e) in
          Ok (mkei u (mkgi (gi_index (ei_gi it)) (gi_dec b)), Some v)
      end
  end.

(** elias_fano_iter.rs 115-118 and 169-172 *)
Definition ei_nth (e : ef) (it : ef_iter) (n : N) : res (ef_iter * option N) :=
  let* o := ei_advance_by e it n in
  match o with None => Ok (it, None) | Some it => ei_next e it end.
Definition ei_nth_back (e : ef) (it : ef_iter) (n : N) : res (ef_iter * option N) :=
  let* o := ei_advance_back_by e it n in
  match o with None => Ok (it, None) | Some it => ei_next_back e it end.

(** elias_fano_iter.rs 142-145 and 90-95 *)
Definition ei_len (it : ef_iter) : N := gi_len (ei_gi it).
Definition ei_count (it : ef_iter) : N := ei_len it.

(** elias_fano_iter.rs 98-111: [universe_zero] is not added. *)
Definition ei_last (e : ef) (it : ef_iter) : res (option N) :=
  if gi_empty (ei_gi it) then Ok None
  else
    let* x := sel_last false (ef_upper e) (ei_up it) in
    match x, gi_back (ei_gi it) with
    | Some pos, Some b => let* v := ei_value e pos b in Ok (Some v)
    | _, _ => Panic
    end.
(** elias_fano_iter.rs 122-138 *)
Definition ei_min (e : ef) (it : ef_iter) : res (option N) := let* '(_, o) := ei_next e it in Ok o.
Definition ei_max (e : ef) (it : ef_iter) : res (option N) := ei_last e it.

Definition ei_step (e : ef) (it : ef_iter) (op : iter_op) : res (ef_iter * iter_out N) :=
  match op with
  | INext => let* '(it, o) := ei_next e it in Ok (it, OItem o)
  | INextBack => let* '(it, o) := ei_next_back e it in Ok (it, OItem o)
  | INth n => let* '(it, o) := ei_nth e it n in Ok (it, OItem o)
  | INthBack n => let* '(it, o) := ei_nth_back e it n in Ok (it, OItem o)
  | ILen => Ok (it, OLen (ei_len it))
  end.
