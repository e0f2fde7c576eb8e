(** * Model of [BitVec] and [MaskedBitVec] (src/bit_vec/mod.rs, src/bit_vec/mask.rs).

    Capacity handling ([with_capacity], [reserve]) has no observable effect besides the
    subtraction inside [reserve]'s argument, which is modelled. *)
From Verif Require Import Base.

(** src/bit_vec/mod.rs 62-65 *)
Record bitvec := mkbv { bdata : list N; blen : N }.

(** mod.rs 70-84: [new], [with_capacity] *)
Definition bv_new : bitvec := mkbv [] 0.

(** mod.rs 89-95 *)
Definition bv_from_zeros (n : N) : bitvec :=
  mkbv (replicate (n / 64) 0 ++ (if n mod 64 =? 0 then [] else [0])) n.

(** mod.rs 100-106 *)
Definition bv_from_ones (n : N) : bitvec :=
  mkbv (replicate (n / 64) (U64 - 1) ++ (if n mod 64 =? 0 then [] else [lowmask (n mod 64)])) n.

(** [self.data[i] = f(self.data[i])] *)
Definition upd_limb (d : list N) (i : N) (f : N -> N) : res (list N) :=
  let* w := idx d i in set_idx d i (f w).

(** mod.rs 725-735 *)
Definition bv_append (bv : bitvec) (bit : bool) : res bitvec :=
  let d := if blen bv mod 64 =? 0 then bdata bv ++ [0] else bdata bv in
  let* d' := if bit
             then upd_limb d (blen bv / 64) (fun w => N.lor w (shl64 1 (blen bv mod 64)))
             else upd_limb d (blen bv / 64) (fun w => N.land w (not64 (shl64 1 (blen bv mod 64)))) in
  Ok (mkbv d' (blen bv + 1)).

(** mod.rs 799-810; the u32/u16/u8 variants (822-852) widen the argument and call this. *)
Definition bv_append_bit (bv : bitvec) (bit : N) : res bitvec :=
  let d := if blen bv mod 64 =? 0 then bdata bv ++ [0] else bdata bv in
  let* d' := if bit mod 2 =? 1
             then upd_limb d (blen bv / 64) (fun w => N.lor w (shl64 1 (blen bv mod 64)))
             else upd_limb d (blen bv / 64) (fun w => N.land w (not64 (shl64 1 (blen bv mod 64)))) in
  Ok (mkbv d' (blen bv + 1)).

(** mod.rs 755-771 *)
Definition bv_drop_last (bv : bitvec) (n : N) : res bitvec :=
  if blen bv <? n then Ok (mkbv [] 0)
  else
    let* rest := sub (blen bv) n in
    let new_limb_count := (rest + 63) / 64 in
    let d := if new_limb_count <? lenN (bdata bv)
             then firstn (N.to_nat new_limb_count) (bdata bv) else bdata bv in
    Ok (mkbv d rest).

(** mod.rs 878-889 *)
Definition bv_append_word (bv : bitvec) (word : N) : res bitvec :=
  let off := blen bv mod 64 in
  if off =? 0 then Ok (mkbv (bdata bv ++ [word]) (blen bv + 64))
  else
    let* d := upd_limb (bdata bv) (blen bv / 64) (fun w => N.land w (not64 (shl64 (U64 - 1) off))) in
    let* d := upd_limb d (blen bv / 64) (fun w => N.lor w (shl64 word off)) in
    Ok (mkbv (d ++ [N.shiftr word (64 - off)]) (blen bv + 64)).

(** mod.rs 911-926 *)
Definition bv_append_bits (bv : bitvec) (w n : N) : res bitvec :=
  let* _ := assert (n <=? 64) in
  let off := blen bv mod 64 in
  if off =? 0 then Ok (mkbv (bdata bv ++ [w]) (blen bv + n))
  else
    let* d := upd_limb (bdata bv) (blen bv / 64) (fun x => N.land x (not64 (shl64 (U64 - 1) off))) in
    let* d := upd_limb d (blen bv / 64) (fun x => N.lor x (shl64 w off)) in
    let d := if 64 <? off + n then d ++ [N.shiftr w (64 - off)] else d in
    Ok (mkbv d (blen bv + n)).

(** mod.rs 950-961 *)
Definition bv_append_bits_unchecked (bv : bitvec) (w n : N) : res bitvec :=
  let off := blen bv mod 64 in
  if off =? 0 then Ok (mkbv (bdata bv ++ [w]) (blen bv + n))
  else
    let* d := upd_limb (bdata bv) (blen bv / 64) (fun x => N.lor x (shl64 w off)) in
    let d := if 64 <? off + n then d ++ [N.shiftr w (64 - off)] else d in
    Ok (mkbv d (blen bv + n)).

(** mod.rs 967-981; the [Extend] impls (1564-1578) loop over this. *)
Definition bv_extend (bv other : bitvec) : res bitvec :=
  let* _ := sub ((blen bv + blen other + 63) / 64) (lenN (bdata bv)) in
  let full_limbs := blen other / 64 in
  let* bv := forM (range 0 full_limbs) bv (fun bv i =>
    let* w := idx (bdata other) i in bv_append_bits bv w 64) in
  let partial_bits := blen other mod 64 in
  if 0 <? partial_bits then
    let* w := idx (bdata other) full_limbs in bv_append_bits bv w partial_bits
  else Ok bv.

(** mod.rs 1564-1578 *)
Definition bv_extend_iter (bv : bitvec) (l : list bitvec) : res bitvec :=
  forM l bv bv_extend.

(** mod.rs 985-993 *)
Definition bv_length (bv : bitvec) : N := blen bv.
Definition bv_is_empty (bv : bitvec) : bool := blen bv =? 0.

(** mod.rs 1011-1028 *)
Definition bv_flip_bit_unchecked (bv : bitvec) (pos : N) : res bitvec :=
  let* d := upd_limb (bdata bv) (pos / 64) (fun w => N.lxor w (shl64 1 (pos mod 64))) in
  Ok (mkbv d (blen bv)).
Definition bv_flip_bit (bv : bitvec) (pos : N) : res bitvec :=
  let* _ := assert (pos <? blen bv) in bv_flip_bit_unchecked bv pos.

(** mod.rs 1049-1069 *)
Definition bv_get_unchecked (bv : bitvec) (pos : N) : res N :=
  let* w := idx (bdata bv) (pos / 64) in Ok (N.land (N.shiftr w (pos mod 64)) 1).
Definition bv_get (bv : bitvec) (pos : N) : res (option N) :=
  if blen bv <=? pos then Ok None
  else let* b := bv_get_unchecked bv pos in Ok (Some b).

(** mod.rs 1093-1114; [Err] is [None]. *)
Definition bv_set_unchecked (bv : bitvec) (pos v : N) : res bitvec :=
  let* d := upd_limb (bdata bv) (pos / 64) (fun w =>
    N.lor (N.land w (not64 (shl64 1 (pos mod 64)))) (shl64 (N.land v 1) (pos mod 64))) in
  Ok (mkbv d (blen bv)).
Definition bv_set (bv : bitvec) (pos v : N) : res (option bitvec) :=
  if blen bv <=? pos then Ok None
  else let* bv' := bv_set_unchecked bv pos v in Ok (Some bv').

(** mod.rs 1134-1153 *)
Definition bv_is_bit_set_unchecked (bv : bitvec) (pos : N) : res bool :=
  let* b := bv_get_unchecked bv pos in Ok (negb (b =? 0)).
Definition bv_is_bit_set (bv : bitvec) (pos : N) : res (option bool) :=
  if blen bv <=? pos then Ok None
  else let* b := bv_is_bit_set_unchecked bv pos in Ok (Some b).

(** mod.rs 1197-1206, also used by [RsVec]; the shift by [64 - pos % 64] is only reached with
    [pos % 64 > 0] and is checked here. *)
Definition limbs_get_bits_unchecked (d : list N) (pos n : N) : res N :=
  let* _ := assert (n <=? 64) in
  let* w := idx d (pos / 64) in
  let partial_word := N.shiftr w (pos mod 64) in
  if pos mod 64 + n <=? 64 then Ok (N.land partial_word (wrapmask n))
  else
    let* w2 := idx d (pos / 64 + 1) in
    let* hi := shl64_chk w2 (64 - pos mod 64) in
    Ok (N.land (N.lor partial_word hi) (wrapmask n)).
Definition bv_get_bits_unchecked (bv : bitvec) (pos n : N) : res N :=
  limbs_get_bits_unchecked (bdata bv) pos n.

(** mod.rs 1165-1174; [pos + len] is checked addition. *)
Definition bv_get_bits (bv : bitvec) (pos n : N) : res (option N) :=
  if (64 <? n) || (n =? 0) then Ok None
  else
    let* e := add64 pos n in
    if blen bv <? e then Ok None
    else let* v := bv_get_bits_unchecked bv pos n in Ok (Some v).

(** mod.rs 1234-1258; [index * n] is checked multiplication. *)
Definition bv_unpack_element (bv : bitvec) (index n : N) : res (option N) :=
  let* p := mul64 index n in bv_get_bits bv p n.
Definition bv_unpack_element_unchecked (bv : bitvec) (index n : N) : res N :=
  let* p := mul64 index n in bv_get_bits_unchecked bv p n.

Definition sumN (l : list N) : N := fold_right N.add 0 l.

(** [slice.last().unwrap()] *)
Definition last_chk {A} (l : list A) : res A :=
  match rev l with [] => Panic | x :: _ => Ok x end.

(** mod.rs 1266-1277 *)
Definition bv_count_ones (bv : bitvec) : res N :=
  let* full := slice_chk (bdata bv) 0 (blen bv / 64) in
  let ones := sumN (map popcount full) in
  if blen bv mod 64 =? 0 then Ok ones
  else
    let* w := last_chk (bdata bv) in
    Ok (ones + popcount (N.land w (lowmask (blen bv mod 64)))).

(** mod.rs 1286-1288 *)
Definition bv_count_zeros (bv : bitvec) : res N :=
  let* ones := bv_count_ones bv in sub (blen bv) ones.

(** mod.rs 1307-1319, 1338-1350, 1369-1381, 1420-1436: all four [apply_mask_*] have this
    shape, with [|], [&], [^] or the custom function as [op]. [Err] is [None]. *)
Definition bv_apply_mask (op : N -> N -> N) (bv mask : bitvec) : res (option bitvec) :=
  if negb (blen bv =? blen mask) then Ok None
  else
    let* d := forM (range 0 (lenN (bdata bv))) (bdata bv) (fun d i =>
      let* a := idx d i in
      let* b := idx (bdata mask) i in
      set_idx d i (op a b)) in
    Ok (Some (mkbv d (blen bv))).

(** mod.rs 1474-1526 *)
Definition bv_split_at_unchecked (bv : bitvec) (at_ : N) : res (bitvec * bitvec) :=
  let* other_len := sub (blen bv) at_ in
  if other_len =? 0 then Ok (bv, bv_new)
  else
    let first_limb := at_ / 64 in
    let last_limb := blen bv / 64 in
    let leading_partial := at_ mod 64 in
    let* other :=
      if first_limb =? last_limb then
        let* w := idx (bdata bv) first_limb in
        bv_append_bits_unchecked bv_new (N.shiftr w leading_partial) other_len
      else
        let* '(other, from) :=
          if 0 <? leading_partial then
            let* w := idx (bdata bv) first_limb in
            let* o := bv_append_bits_unchecked bv_new (N.shiftr w leading_partial)
                        (64 - leading_partial) in
            Ok (o, first_limb + 1)
          else Ok (bv_new, first_limb) in
        let* other := forM (range from last_limb) other (fun o i =>
          let* w := idx (bdata bv) i in bv_append_bits_unchecked o w 64) in
        let trailing_partial := blen bv mod 64 in
        if 0 <? trailing_partial then
          let* w := idx (bdata bv) last_limb in
          bv_append_bits_unchecked other w trailing_partial
        else Ok other in
    let* bv' := bv_drop_last bv other_len in
    Ok (bv', other).

(** mod.rs 1456-1462; [inr] is [Err(self)]. *)
Definition bv_split_at (bv : bitvec) (at_ : N) : res ((bitvec * bitvec) + bitvec) :=
  if blen bv <? at_ then Ok (inr bv)
  else let* p := bv_split_at_unchecked bv at_ in Ok (inl p).

(** mod.rs 131-230: [from_bits], [from_bits_u16/u32/u64], [from_bits_iter] (the arguments are
    widened to [u64]). *)
Definition bv_from_bits (l : list N) : res bitvec := forM l bv_new bv_append_bit.

(** mod.rs 256-324, 1548-1562, 1584-1588: [from_limbs], [from_limbs_iter], [from_vec], the
    [From] and [FromIterator] impls. *)
Definition bv_from_limbs (l : list N) : bitvec := mkbv l (lenN l * 64).

(** mod.rs 675-702: [from_bools], [from_bool_iter] *)
Definition bv_from_bools (l : list bool) : res bitvec := forM l bv_new bv_append.

(** mod.rs 366-369: the [while rest > 0] loop; fuel is the number of iterations. *)
Fixpoint bv_pad_loop (fuel : nat) (bv : bitvec) (rest maxb : N) : res bitvec :=
  if 0 <? rest then
    match fuel with
    | O => Diverge
    | S fuel =>
        let* bv := bv_append_bits bv 0 (N.min rest maxb) in
        bv_pad_loop fuel bv (rest - maxb) maxb
    end
  else Ok bv.

(** mod.rs 360-371 *)
Definition bv_pack_word (maxb : N) (bv : bitvec) (word num_bits : N) : res bitvec :=
  if num_bits <=? maxb then bv_append_bits bv word num_bits
  else
    let* bv := bv_append_bits bv word maxb in
    let* rest := sub num_bits maxb in
    bv_pad_loop (S (N.to_nat (rest / maxb))) bv rest maxb.

(** mod.rs 328-355 and the eight public wrappers 403-656 ([maxb] is 8, 16, 32 or 64). *)
Definition bv_pack (maxb : N) (seq : list N) (bits_per_element : N) : res bitvec :=
  forM seq bv_new (fun bv w => bv_pack_word maxb bv w bits_per_element).

(** mod.rs 1593-1615 *)
Definition bv_eq (a b : bitvec) : res bool :=
  if negb (blen a =? blen b) then Ok false
  else if blen a =? 0 then Ok true
  else
    let* last := sub (lenN (bdata a)) 1 in
    let* r := forM_ret (range 0 last) tt (fun _ i =>
      let* x := idx (bdata a) i in
      let* y := idx (bdata b) i in
      if negb (x =? y) then Ok (inr tt) else Ok (inl tt)) in
    match r with
    | inr _ => Ok false
    | inl _ =>
        let mask := lowmask (blen a mod 64) in
        let* x := idx (bdata a) last in
        let* y := idx (bdata b) last in
        if negb (N.land x mask =? N.land y mask) then Ok false else Ok true
    end.

(** mod.rs 1621-1630: the sequence of words fed to the hasher. *)
Definition bv_hash (a : bitvec) : res (list N) :=
  if 0 <? blen a then
    let* last := sub (lenN (bdata a)) 1 in
    let* init := slice_chk (bdata a) 0 last in
    let* w := last_chk (bdata a) in
    Ok (blen a :: init ++ [N.land w (lowmask (blen a mod 64))])
  else Ok [blen a].

(** ** MaskedBitVec, mask.rs 11-15 *)
Record masked := mkmasked { mvec : bitvec; mmask : bitvec; mop : N -> N -> N }.

(** mask.rs 22-30 via mod.rs 1296, 1327, 1358, 1395; [Err] is [None]. *)
Definition masked_new (v m : bitvec) (op : N -> N -> N) : option masked :=
  if negb (blen v =? blen m) then None else Some (mkmasked v m op).

(** mask.rs 34-44 *)
Definition masked_limbs (m : masked) : list N :=
  map (fun '(a, b) => mop m a b) (combine (bdata (mvec m)) (bdata (mmask m))).

(** mask.rs 70-76 *)
Definition masked_get_unchecked (m : masked) (pos : N) : res N :=
  let* a := idx (bdata (mvec m)) (pos / 64) in
  let* b := idx (bdata (mmask m)) (pos / 64) in
  Ok (N.land (N.shiftr (mop m a b) (pos mod 64)) 1).
(** mask.rs 51-57 *)
Definition masked_get (m : masked) (pos : N) : res (option N) :=
  if blen (mvec m) <=? pos then Ok None
  else let* b := masked_get_unchecked m pos in Ok (Some b).
(** mask.rs 82-102 *)
Definition masked_is_bit_set (m : masked) (pos : N) : res (option bool) :=
  if blen (mvec m) <=? pos then Ok None
  else let* b := masked_get_unchecked m pos in Ok (Some (negb (b =? 0))).

(** mask.rs 142-161 *)
Definition masked_get_bits_unchecked (m : masked) (pos n : N) : res N :=
  let* _ := assert (n <=? 64) in
  let* a := idx (bdata (mvec m)) (pos / 64) in
  let* b := idx (bdata (mmask m)) (pos / 64) in
  let partial_word := N.shiftr (mop m a b) (pos mod 64) in
  if pos mod 64 + n =? 64 then Ok partial_word
  else if pos mod 64 + n <? 64 then Ok (N.land partial_word (lowmask (n mod 64)))
  else
    let* a2 := idx (bdata (mvec m)) (pos / 64 + 1) in
    let* b2 := idx (bdata (mmask m)) (pos / 64 + 1) in
    let* next_half := shl64_chk (mop m a2 b2) (64 - pos mod 64) in
    Ok (N.land (N.lor partial_word next_half) (lowmask (n mod 64))).
(** mask.rs 111-120 *)
Definition masked_get_bits (m : masked) (pos n : N) : res (option N) :=
  if (64 <? n) || (n =? 0) then Ok None
  else
    let* e := add64 pos n in
    if blen (mvec m) <? e then Ok None
    else let* v := masked_get_bits_unchecked m pos n in Ok (Some v).

(** mask.rs 177-193 *)
Definition masked_count_ones (m : masked) : res N :=
  let ones := sumN (map popcount (firstn (N.to_nat (blen (mvec m) / 64)) (masked_limbs m))) in
  if blen (mvec m) mod 64 =? 0 then Ok ones
  else
    let* a := last_chk (bdata (mvec m)) in
    let* b := last_chk (bdata (mmask m)) in
    Ok (ones + popcount (N.land (mop m a b) (lowmask (blen (mvec m) mod 64)))).
(** mask.rs 169-171 *)
Definition masked_count_zeros (m : masked) : res N :=
  let* ones := masked_count_ones m in sub (blen (mvec m)) ones.

(** mask.rs 198-203 *)
Definition masked_to_bit_vec (m : masked) : bitvec :=
  mkbv (masked_limbs m) (blen (mvec m)).
