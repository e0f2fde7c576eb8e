(** * Model of [WaveletMatrix] (src/wavelet/mod.rs).

    Every query exists in a [BitVec] and a [u64] version with the same body except for the way bits
    of the symbol are read and bits of the result are written; the model takes a bit reader and a
    bit writer as arguments, as [predecessor_generic_unchecked] does in the code. A [Range] is given
    by its two end points. Widths and lengths are unbounded numbers; conditions such as [k <= 64]
    appear where the code checks them. *)
From Verif Require Import Base BitVecModel RsVecModel.

(** mod.rs 72-74 *)
Definition wavelet := list rsvec.

(** mod.rs 2028-2054 *)
Definition wm_bits (w : wavelet) : N := lenN w.
Definition wm_len (w : wavelet) : N := match w with [] => 0 | d :: _ => rlen d end.
Definition wm_is_empty (w : wavelet) : bool := wm_len w =? 0.

(** [iter().map(f).collect()] for a function that may panic. *)
Fixpoint mapM {A B} (f : A -> res B) (l : list A) : res (list B) :=
  match l with
  | [] => Ok []
  | x :: r => let* y := f x in let* ys := mapM f r in Ok (y :: ys)
  end.

(** ** Construction. *)
Section Build.
Variable k : N.  (* bits_per_element *)
Variable n : N.  (* num_elements *)
Variable bit_lookup : N -> N -> res N.
Variable element_lookup : N -> res N.

(** mod.rs 100-107: the bits of one level. *)
Definition ps_fill (perm : list N) (level : N) (data : bitvec) : res (N * bitvec) :=
  forM (range 0 (lenN perm)) (0, data) (fun '(zeros, data) i =>
    let* p := idx perm i in
    let* sh := sub (k - level) 1 in
    let* b := bit_lookup p sh in
    if b =? 0 then Ok (zeros + 1, data)
    else
      let* o := bv_set data i 1 in
      match o with Some data => Ok (zeros, data) | None => Panic end).

(** mod.rs 113-123: the order of the elements at the next level. *)
Definition ps_scatter (perm next : list N) (data : bitvec) (zeros : N) : res (list N) :=
  let* '(next, _, _) :=
    forM (range 0 (lenN perm)) (next, 0, zeros) (fun '(next, zb, ob) i =>
      let* p := idx perm i in
      let* b := bv_get_unchecked data i in
      if b =? 0 then let* next := set_idx next zb p in Ok (next, zb + 1, ob)
      else let* next := set_idx next ob p in Ok (next, zb, ob + 1)) in
  Ok next.

(** mod.rs 85-132. [element_len - 1] is only evaluated inside the loop, where it cannot underflow. *)
Definition permutation_sorting : res wavelet :=
  let* '(datas, _, _) :=
    forM (range 0 k) ([], range 0 n, replicate n 0) (fun '(datas, perm, next) level =>
      let* '(zeros, data) := ps_fill perm level (bv_from_zeros n) in
      if level <? k - 1 then
        let* next := ps_scatter perm next data zeros in Ok (datas ++ [data], next, perm)
      else Ok (datas ++ [data], perm, next)) in
  mapM rs_from_bit_vec datas.

(** [usize::reverse_bits] *)
Definition reverse_bits64 (x : N) : N :=
  fold_left (fun acc i => 2 * acc + N.land (N.shiftr x i) 1) (range 0 64) 0.

(** [v[i] += 1] *)
Definition incr (l : list N) (i : N) : res (list N) :=
  let* x := idx l i in set_idx l i (x + 1).

(** mod.rs 195-198 *)
Definition pc_first (histogram : list N) (data : list bitvec) : res (list N * list bitvec) :=
  forM (range 0 n) (histogram, data) (fun '(histogram, data) i =>
    let* e := element_lookup i in
    let* histogram := incr histogram e in
    let* sh := sub k 1 in
    let* b := bit_lookup i sh in
    let* d := idx data 0 in
    let* d := bv_set_unchecked d i b in
    let* data := set_idx data 0 d in
    Ok (histogram, data)).

(** mod.rs 202-204 *)
Definition pc_combine (level : N) (histogram : list N) : res (list N) :=
  forM (range 0 (2 ^ level)) histogram (fun histogram h =>
    let* x := idx histogram (2 * h) in
    let* y := idx histogram (2 * h + 1) in
    set_idx histogram h (x + y)).

(** mod.rs 208-213; [64 - level] is below 64 because [level >= 1]. *)
Definition pc_borders (level : N) (histogram borders : list N) : res (list N) :=
  let* borders := set_idx borders 0 0 in
  forM (range 1 (2 ^ level)) borders (fun borders h =>
    let h_minus_1 := N.shiftr (reverse_bits64 (h - 1)) (64 - level) in
    let* b := idx borders h_minus_1 in
    let* x := idx histogram h_minus_1 in
    set_idx borders (N.shiftr (reverse_bits64 h) (64 - level)) (b + x)).

(** mod.rs 215-222 *)
Definition pc_place (level : N) (borders : list N) (data : bitvec) : res (list N * bitvec) :=
  forM (range 0 n) (borders, data) (fun '(borders, data) i =>
    let* b := bit_lookup i (k - level - 1) in
    let* e := element_lookup i in
    let p := N.shiftr e (k - level) in
    let* pos := idx borders p in
    let* data := bv_set_unchecked data pos b in
    let* borders := incr borders p in
    Ok (borders, data)).

(** mod.rs 184-228; [1 << bits_per_element] overflows for 64 bits. *)
Definition prefix_counting : res wavelet :=
  let* size := shl64_chk 1 k in
  let* '(histogram, data) := pc_first (replicate size 0) (replicate k (bv_from_zeros n)) in
  let* '(_, _, data) :=
    forM (rev (range 1 k)) (histogram, replicate size 0, data) (fun '(histogram, borders, data) level =>
      let* histogram := pc_combine level histogram in
      let* borders := pc_borders level histogram borders in
      let* d := idx data level in
      let* '(borders, d) := pc_place level borders d in
      let* data := set_idx data level d in
      Ok (histogram, borders, data)) in
  mapM rs_from_bit_vec data.
End Build.

(** The look-up closures of the constructors, mod.rs 150-152, 169-171, 260-266, 293-294. *)
Definition seq_bit (sequence : list N) (element bit : N) : res N :=
  let* x := idx sequence element in
  let* y := shr64_chk x bit in Ok (N.land y 1).
Definition bv_bit (bv : bitvec) (k element bit : N) : res N := bv_get_unchecked bv (element * k + bit).
Definition bv_element (bv : bitvec) (k element : N) : res N := bv_get_bits_unchecked bv (element * k) k.

(** mod.rs 146-152; [x % 0] panics. *)
Definition wm_from_bit_vec (bv : bitvec) (k : N) : res wavelet :=
  let* _ := assert (negb (k =? 0)) in
  let* _ := assert (blen bv mod k =? 0) in
  permutation_sorting k (blen bv / k) (bv_bit bv k).

(** mod.rs 164-172 *)
Definition wm_from_slice (sequence : list N) (k : N) : res wavelet :=
  let* _ := assert (k <=? 64) in
  permutation_sorting k (lenN sequence) (seq_bit sequence).

(** mod.rs 249-267 *)
Definition wm_from_bit_vec_pc (bv : bitvec) (k : N) : res wavelet :=
  let* _ := assert (negb (k =? 0)) in
  let* _ := assert (blen bv mod k =? 0) in
  let* _ := assert (k <=? 64) in
  prefix_counting k (blen bv / k) (bv_bit bv k) (bv_element bv k).

(** mod.rs 285-296 *)
Definition wm_from_slice_pc (sequence : list N) (k : N) : res wavelet :=
  let* _ := assert (k <=? 64) in
  prefix_counting k (lenN sequence) (seq_bit sequence) (idx sequence).

(** ** Reading and writing words. *)

(** The bit of the symbol for a level: [(bits_per_element - 1) - level], e.g. mod.rs 424, 488. *)
Definition sym_pos (w : wavelet) (level : N) : res N := let* m := sub (wm_bits w) 1 in sub m level.
Definition rd_bv (w : wavelet) (symbol : bitvec) (level : N) : res N :=
  let* p := sym_pos w level in bv_get_unchecked symbol p.
Definition rd_u64 (w : wavelet) (symbol : N) (level : N) : res N :=
  let* p := sym_pos w level in
  let* x := shr64_chk symbol p in Ok (N.land x 1).

(** The result writers of predecessor and successor, mod.rs 1696-1698 and 1740-1745. *)
Definition wr_bv (w : wavelet) (bit level : N) (result : bitvec) : res bitvec :=
  let* p := sym_pos w level in bv_set_unchecked result p bit.
Definition wr_u64 (bit level : N) (result : N) : res N := Ok (N.lor (shl64 result 1) bit).

(** The writer of the quantile search on bit vectors writes ones only, mod.rs 1069-1075. *)
Definition wr_ones (w : wavelet) (bit level : N) (result : bitvec) : res bitvec :=
  if bit =? 0 then Ok result else wr_bv w bit level result.

(** ** Access. *)

(** mod.rs 301-311; [target] is the state of the closure. *)
Fixpoint wm_reconstruct {T} (target : N -> T -> res T) (ds : list rsvec) (i : N) (t : T) : res T :=
  match ds with
  | [] => Ok t
  | d :: ds =>
      let* bit := rs_get_unchecked d i in
      let* t := target bit t in
      let* i := if bit =? 0 then rs_rank0 d i else let* r := rs_rank1 d i in Ok (rrank0 d + r) in
      wm_reconstruct target ds i t
  end.

(** mod.rs 350-358 *)
Definition wm_get_value_unchecked (w : wavelet) (i : N) : res bitvec :=
  let* level := sub (wm_bits w) 1 in
  let* '(value, _) :=
    wm_reconstruct (fun bit '(value, level) =>
      let* value := bv_set_unchecked value level bit in Ok (value, level - 1))
      w i (bv_from_zeros (wm_bits w), level) in
  Ok value.
(** mod.rs 331-337 *)
Definition wm_get_value (w : wavelet) (i : N) : res (option bitvec) :=
  if (wm_bits w =? 0) || (wm_len w <=? i) then Ok None
  else let* v := wm_get_value_unchecked w i in Ok (Some v).
(** mod.rs 396-403 *)
Definition wm_get_u64_unchecked (w : wavelet) (i : N) : res N :=
  wm_reconstruct (fun bit v => Ok (N.lor (shl64 v 1) bit)) w i 0.
(** mod.rs 377-383 *)
Definition wm_get_u64 (w : wavelet) (i : N) : res (option N) :=
  if (64 <? wm_bits w) || (wm_bits w =? 0) || (wm_len w <=? i) then Ok None
  else let* v := wm_get_u64_unchecked w i in Ok (Some v).

(** ** Rank. *)

(** mod.rs 424-430 and 782-786: the position of a boundary after one level. *)
Definition wm_down (d : rsvec) (bit p : N) : res N :=
  if bit =? 0 then rs_rank0 d p else let* r := rs_rank1 d p in Ok (rrank0 d + r).

Section Symbol.
Variable rd : N -> res N.

(** mod.rs 423-434, 487-498 *)
Fixpoint wm_rank_loop (ds : list rsvec) (level a b : N) : res N :=
  match ds with
  | [] => sub b a
  | d :: ds =>
      let* bit := rd level in
      let* a := wm_down d bit a in
      let* b := wm_down d bit b in
      wm_rank_loop ds (level + 1) a b
  end.

(** mod.rs 779-787, 859-867 *)
Fixpoint wm_start_loop (ds : list rsvec) (level a : N) : res N :=
  match ds with
  | [] => Ok a
  | d :: ds =>
      let* bit := rd level in
      let* a := wm_down d bit a in
      wm_start_loop ds (level + 1) a
  end.

(** mod.rs 791-797, 871-877: the levels in reverse order. *)
Fixpoint wm_up_loop (ds : list rsvec) (level e : N) : res N :=
  match ds with
  | [] => Ok e
  | d :: ds =>
      let* e := wm_up_loop ds (level + 1) e in
      let* bit := rd level in
      if bit =? 0 then rs_select0 d e
      else let* x := sub e (rrank0 d) in rs_select1 d x
  end.

(** mod.rs 778-800, 858-880; [range_start + rank] is a checked addition. *)
Definition wm_select_loop (ds : list rsvec) (offset rank : N) : res N :=
  let* start := wm_start_loop ds 0 offset in
  let* e := add64 start rank in
  wm_up_loop ds 0 e.
End Symbol.

(** mod.rs 422-434, 458-467 *)
Definition wm_rank_range_unchecked (w : wavelet) (a b : N) (symbol : bitvec) : res N :=
  wm_rank_loop (rd_bv w symbol) w 0 a b.
Definition wm_rank_range (w : wavelet) (a b : N) (symbol : bitvec) : res (option N) :=
  if (wm_len w <=? a) || (wm_len w <? b) || negb (blen symbol =? wm_bits w) then Ok None
  else let* r := wm_rank_range_unchecked w a b symbol in Ok (Some r).
(** mod.rs 486-498, 520-526 *)
Definition wm_rank_range_u64_unchecked (w : wavelet) (a b symbol : N) : res N :=
  wm_rank_loop (rd_u64 w symbol) w 0 a b.
Definition wm_rank_range_u64 (w : wavelet) (a b symbol : N) : res (option N) :=
  if (wm_len w <=? a) || (wm_len w <? b) || (64 <? wm_bits w) then Ok None
  else let* r := wm_rank_range_u64_unchecked w a b symbol in Ok (Some r).
(** mod.rs 551-553, 585-595 *)
Definition wm_rank_offset_unchecked (w : wavelet) (offset i : N) (symbol : bitvec) : res N :=
  wm_rank_range_unchecked w offset i symbol.
Definition wm_rank_offset (w : wavelet) (offset i : N) (symbol : bitvec) : res (option N) :=
  if (i <? offset) || (wm_len w <=? offset) || (wm_len w <? i) || negb (blen symbol =? wm_bits w) then Ok None
  else let* r := wm_rank_offset_unchecked w offset i symbol in Ok (Some r).
(** mod.rs 618-620, 648-654 *)
Definition wm_rank_offset_u64_unchecked (w : wavelet) (offset i symbol : N) : res N :=
  wm_rank_range_u64_unchecked w offset i symbol.
Definition wm_rank_offset_u64 (w : wavelet) (offset i symbol : N) : res (option N) :=
  if (i <? offset) || (wm_len w <=? offset) || (wm_len w <? i) || (64 <? wm_bits w) then Ok None
  else let* r := wm_rank_offset_u64_unchecked w offset i symbol in Ok (Some r).
(** mod.rs 674-676, 701-707 *)
Definition wm_rank_unchecked (w : wavelet) (i : N) (symbol : bitvec) : res N :=
  wm_rank_range_unchecked w 0 i symbol.
Definition wm_rank (w : wavelet) (i : N) (symbol : bitvec) : res (option N) :=
  if (wm_len w <? i) || negb (blen symbol =? wm_bits w) then Ok None
  else let* r := wm_rank_range_unchecked w 0 i symbol in Ok (Some r).
(** mod.rs 725-727, 749-755 *)
Definition wm_rank_u64_unchecked (w : wavelet) (i symbol : N) : res N :=
  wm_rank_range_u64_unchecked w 0 i symbol.
Definition wm_rank_u64 (w : wavelet) (i symbol : N) : res (option N) :=
  if (wm_len w <? i) || (64 <? wm_bits w) then Ok None
  else let* r := wm_rank_range_u64_unchecked w 0 i symbol in Ok (Some r).

(** ** Select. *)

(** mod.rs 830-835: indices that are not below the length mean "no such occurrence". *)
Definition wm_found (w : wavelet) (i : N) : option N := if i <? wm_len w then Some i else None.

(** mod.rs 778-800, 826-837 *)
Definition wm_select_offset_unchecked (w : wavelet) (offset rank : N) (symbol : bitvec) : res N :=
  wm_select_loop (rd_bv w symbol) w offset rank.
Definition wm_select_offset (w : wavelet) (offset rank : N) (symbol : bitvec) : res (option N) :=
  if (wm_len w <=? offset) || negb (blen symbol =? wm_bits w) then Ok None
  else let* i := wm_select_offset_unchecked w offset rank symbol in Ok (wm_found w i).
(** mod.rs 858-880, 903-914 *)
Definition wm_select_offset_u64_unchecked (w : wavelet) (offset rank symbol : N) : res N :=
  wm_select_loop (rd_u64 w symbol) w offset rank.
Definition wm_select_offset_u64 (w : wavelet) (offset rank symbol : N) : res (option N) :=
  if (wm_len w <=? offset) || (64 <? wm_bits w) then Ok None
  else let* i := wm_select_offset_u64_unchecked w offset rank symbol in Ok (wm_found w i).
(** mod.rs 935-937, 960-971 *)
Definition wm_select_unchecked (w : wavelet) (rank : N) (symbol : bitvec) : res N :=
  wm_select_offset_unchecked w 0 rank symbol.
Definition wm_select (w : wavelet) (rank : N) (symbol : bitvec) : res (option N) :=
  if blen symbol =? wm_bits w then
    let* i := wm_select_unchecked w rank symbol in Ok (wm_found w i)
  else Ok None.
(** mod.rs 990-992, 1012-1023 *)
Definition wm_select_u64_unchecked (w : wavelet) (rank symbol : N) : res N :=
  wm_select_offset_u64_unchecked w 0 rank symbol.
Definition wm_select_u64 (w : wavelet) (rank symbol : N) : res (option N) :=
  if 64 <? wm_bits w then Ok None
  else let* i := wm_select_u64_unchecked w rank symbol in Ok (wm_found w i).

(** ** Quantile. *)

(** mod.rs 1063-1080, 1194-1209 *)
Fixpoint wm_quantile_loop {T} (wr : N -> N -> T -> res T) (ds : list rsvec) (level a b k : N) (prefix : T) : res T :=
  match ds with
  | [] => Ok prefix
  | d :: ds =>
      let* zs := rs_rank0 d a in
      let* ze := rs_rank0 d b in
      let* zeros := sub ze zs in
      if k <? zeros then
        let* prefix := wr 0 level prefix in
        wm_quantile_loop wr ds (level + 1) zs ze k prefix
      else
        let* prefix := wr 1 level prefix in
        let* k := sub k zeros in
        let* oa := sub a zs in
        let* ob := sub b ze in
        wm_quantile_loop wr ds (level + 1) (rrank0 d + oa) (rrank0 d + ob) k prefix
  end.

(** mod.rs 1052-1083 *)
Definition wm_partial_quantile (w : wavelet) (a b k start_level : N) (prefix : bitvec) : res bitvec :=
  let* _ := assert (blen prefix =? wm_bits w) in
  let* _ := assert (a <? b) in
  let* _ := assert (b <=? wm_len w) in
  wm_quantile_loop (wr_ones w) (skipn (N.to_nat start_level) w) start_level a b k prefix.
(** mod.rs 1183-1212 *)
Definition wm_partial_quantile_u64 (w : wavelet) (a b k start_level prefix : N) : res N :=
  let* _ := assert (wm_bits w <=? 64) in
  let* _ := assert (a <? b) in
  let* _ := assert (b <=? wm_len w) in
  wm_quantile_loop wr_u64 (skipn (N.to_nat start_level) w) start_level a b k prefix.

(** mod.rs 1040-1044, 1105-1111 *)
Definition wm_quantile_unchecked (w : wavelet) (a b k : N) : res bitvec :=
  wm_partial_quantile w a b k 0 (bv_from_zeros (wm_bits w)).
Definition wm_quantile (w : wavelet) (a b k : N) : res (option bitvec) :=
  if (wm_len w <=? a) || (wm_len w <? b) then Ok None
  else
    let* n := sub b a in
    if n <=? k then Ok None
    else let* v := wm_quantile_unchecked w a b k in Ok (Some v).
(** mod.rs 1172-1174, 1234-1244 *)
Definition wm_quantile_u64_unchecked (w : wavelet) (a b k : N) : res N :=
  wm_partial_quantile_u64 w a b k 0 0.
Definition wm_quantile_u64 (w : wavelet) (a b k : N) : res (option N) :=
  if (wm_len w <=? a) || (wm_len w <? b) || (64 <? wm_bits w) then Ok None
  else
    let* n := sub b a in
    if n <=? k then Ok None
    else let* v := wm_quantile_u64_unchecked w a b k in Ok (Some v).

(** mod.rs 1125-1127, 1148-1154 *)
Definition wm_get_sorted_unchecked (w : wavelet) (i : N) : res bitvec := wm_quantile_unchecked w 0 (wm_len w) i.
Definition wm_get_sorted (w : wavelet) (i : N) : res (option bitvec) :=
  if wm_len w <=? i then Ok None
  else let* v := wm_get_sorted_unchecked w i in Ok (Some v).
(** mod.rs 1259-1261, 1280-1286 *)
Definition wm_get_sorted_u64_unchecked (w : wavelet) (i : N) : res N := wm_quantile_u64_unchecked w 0 (wm_len w) i.
Definition wm_get_sorted_u64 (w : wavelet) (i : N) : res (option N) :=
  if (wm_len w <=? i) || (64 <? wm_bits w) then Ok None
  else let* v := wm_get_sorted_u64_unchecked w i in Ok (Some v).

(** mod.rs 1301-1303, 1323-1325, 1341-1343, 1364-1366 *)
Definition wm_range_min_unchecked (w : wavelet) (a b : N) : res bitvec := wm_quantile_unchecked w a b 0.
Definition wm_range_min (w : wavelet) (a b : N) : res (option bitvec) := wm_quantile w a b 0.
Definition wm_range_min_u64_unchecked (w : wavelet) (a b : N) : res N := wm_quantile_u64_unchecked w a b 0.
Definition wm_range_min_u64 (w : wavelet) (a b : N) : res (option N) := wm_quantile_u64 w a b 0.

(** mod.rs 1382-1385, 1405-1412 *)
Definition wm_range_max_unchecked (w : wavelet) (a b : N) : res bitvec :=
  let* n := sub b a in let* k := sub n 1 in wm_quantile_unchecked w a b k.
Definition wm_range_max (w : wavelet) (a b : N) : res (option bitvec) :=
  if negb (a <? b) then Ok None
  else let* n := sub b a in let* k := sub n 1 in wm_quantile w a b k.
(** mod.rs 1428-1431, 1451-1458 *)
Definition wm_range_max_u64_unchecked (w : wavelet) (a b : N) : res N :=
  let* n := sub b a in let* k := sub n 1 in wm_quantile_u64_unchecked w a b k.
Definition wm_range_max_u64 (w : wavelet) (a b : N) : res (option N) :=
  if negb (a <? b) then Ok None
  else let* n := sub b a in let* k := sub n 1 in wm_quantile_u64 w a b k.

(** mod.rs 1476-1479, 1502-1509 *)
Definition wm_range_median_unchecked (w : wavelet) (a b : N) : res bitvec :=
  let* m := sub b 1 in let* n := sub m a in wm_quantile_unchecked w a b (n / 2).
Definition wm_range_median (w : wavelet) (a b : N) : res (option bitvec) :=
  if negb (a <? b) then Ok None
  else let* m := sub b 1 in let* n := sub m a in wm_quantile w a b (n / 2).
(** mod.rs 1527-1530, 1553-1560 *)
Definition wm_range_median_u64_unchecked (w : wavelet) (a b : N) : res N :=
  let* m := sub b 1 in let* n := sub m a in wm_quantile_u64_unchecked w a b (n / 2).
Definition wm_range_median_u64 (w : wavelet) (a b : N) : res (option N) :=
  if negb (a <? b) || (64 <? wm_bits w) || (wm_len w <? b) then Ok None
  else let* m := sub b 1 in let* n := sub m a in wm_quantile_u64 w a b (n / 2).

(** ** Predecessor and successor. *)
Section Neighbour.
Context {T : Type}.
Variable rd : N -> res N.
Variable wr : N -> N -> T -> res T.
Variable quantile : N -> N -> N -> N -> T -> res T.

(** mod.rs 1581-1654. [fb] holds [last_one_level], [next_smaller_range] and [last_smaller_prefix],
    which are always assigned together (the initial prefix is never used). *)
Fixpoint wm_pred_loop (ds : list rsvec) (level a b : N) (value : T) (fb : option (N * N * N * T)) : res (option T) :=
  match ds with
  | [] => Ok (Some value)
  | d :: ds =>
      let* query_bit := rd level in
      let* zs := rs_rank0 d a in
      let* ze := rs_rank0 d b in
      let* elements_zero := sub ze zs in
      if query_bit =? 0 then
        if elements_zero =? 0 then
          match fb with
          | None => Ok None
          | Some (l, ra, rb, prefix) =>
              let* m := sub rb ra in
              let* i := sub m 1 in
              let* prefix := wr 0 l prefix in
              let* v := quantile ra rb i (l + 1) prefix in
              Ok (Some v)
          end
        else
          let* value := wr 0 level value in
          wm_pred_loop ds (level + 1) zs ze value fb
      else
        let* m := sub b a in
        if elements_zero =? m then
          let* i := sub m 1 in
          let* v := quantile a b i level value in
          Ok (Some v)
        else
          let fb := if zs <? ze then Some (level, zs, ze, value) else fb in
          let* value := wr 1 level value in
          let* oa := sub a zs in
          let* ob := sub b ze in
          wm_pred_loop ds (level + 1) (rrank0 d + oa) (rrank0 d + ob) value fb
  end.

(** mod.rs 1765-1841 *)
Fixpoint wm_succ_loop (ds : list rsvec) (level a b : N) (value : T) (fb : option (N * N * N * T)) : res (option T) :=
  match ds with
  | [] => Ok (Some value)
  | d :: ds =>
      let* query_bit := rd level in
      let* zs := rs_rank0 d a in
      let* ze := rs_rank0 d b in
      let* elements_zero := sub ze zs in
      if query_bit =? 0 then
        if elements_zero =? 0 then
          let* v := quantile a b 0 level value in
          Ok (Some v)
        else
          let* oa := sub a zs in
          let* ob := sub b ze in
          let fb := if rrank0 d + oa <? rrank0 d + ob then Some (level, rrank0 d + oa, rrank0 d + ob, value) else fb in
          let* value := wr 0 level value in
          wm_succ_loop ds (level + 1) zs ze value fb
      else
        let* m := sub b a in
        if elements_zero =? m then
          match fb with
          | None => Ok None
          | Some (l, ra, rb, prefix) =>
              let* prefix := wr 1 l prefix in
              let* v := quantile ra rb 0 (l + 1) prefix in
              Ok (Some v)
          end
        else
          let* value := wr 1 level value in
          let* oa := sub a zs in
          let* ob := sub b ze in
          wm_succ_loop ds (level + 1) (rrank0 d + oa) (rrank0 d + ob) value fb
  end.
End Neighbour.

(** mod.rs 1682-1701 *)
Definition wm_predecessor (w : wavelet) (a b : N) (symbol : bitvec) : res (option bitvec) :=
  if negb (blen symbol =? wm_bits w) || negb (a <? b) || wm_is_empty w || (wm_len w <? b) then Ok None
  else wm_pred_loop (rd_bv w symbol) (wr_bv w) (wm_partial_quantile w) w 0 a b (bv_from_zeros (wm_bits w)) None.
(** mod.rs 1726-1748 *)
Definition wm_predecessor_u64 (w : wavelet) (a b symbol : N) : res (option N) :=
  if (64 <? wm_bits w) || negb (a <? b) || wm_is_empty w || (wm_len w <? b) then Ok None
  else wm_pred_loop (rd_u64 w symbol) wr_u64 (wm_partial_quantile_u64 w) w 0 a b 0 None.
(** mod.rs 1869-1888 *)
Definition wm_successor (w : wavelet) (a b : N) (symbol : bitvec) : res (option bitvec) :=
  if negb (blen symbol =? wm_bits w) || negb (a <? b) || wm_is_empty w || (wm_len w <? b) then Ok None
  else wm_succ_loop (rd_bv w symbol) (wr_bv w) (wm_partial_quantile w) w 0 a b (bv_from_zeros (wm_bits w)) None.
(** mod.rs 1913-1935 *)
Definition wm_successor_u64 (w : wavelet) (a b symbol : N) : res (option N) :=
  if (64 <? wm_bits w) || negb (a <? b) || wm_is_empty w || (wm_len w <? b) then Ok None
  else wm_succ_loop (rd_u64 w symbol) wr_u64 (wm_partial_quantile_u64 w) w 0 a b 0 None.

(** mod.rs 1952-2023 and general_iter.rs 7-22: the iterators walk over the indices; those yielding
    [u64] do not exist for more than 64 bits. The getters are given to the iterator model. *)
Definition wm_iter_len (w : wavelet) : N := wm_len w.
Definition wm_iter_u64_len (w : wavelet) : option N := if 64 <? wm_bits w then None else Some (wm_len w).
