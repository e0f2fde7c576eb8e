(** * Rank budgets of the wavelet matrix, in the style of [CostModel]. *)
From Verif Require Import Base BitVecModel RsVecModel WaveletModel.

(** ** Rank queries of the wavelet matrix. The copies below pass on a budget [q] for rank queries on
    the levels, pay before each query, and return [Diverge] when the budget is used up. *)
Definition pay (n q : N) : res N := if n <=? q then Ok (q - n) else Diverge.
(** mod.rs 301-311 *)
Fixpoint wm_reconstruct_cut {T} (target : N -> T -> res T) (ds : list rsvec) (i : N) (t : T) (q : N) : res T :=
  match ds with
  | [] => Ok t
  | d :: ds =>
      let* bit := rs_get_unchecked d i in
      let* t := target bit t in
      let* q := pay 1 q in
      let* i := if bit =? 0 then rs_rank0 d i else let* r := rs_rank1 d i in Ok (rrank0 d + r) in
      wm_reconstruct_cut target ds i t q
  end.
(** mod.rs 423-434, 487-498 *)
Fixpoint wm_rank_cut (rd : N -> res N) (ds : list rsvec) (level a b q : N) : res N :=
  match ds with
  | [] => sub b a
  | d :: ds =>
      let* bit := rd level in
      let* q := pay 2 q in
      let* a := wm_down d bit a in
      let* b := wm_down d bit b in
      wm_rank_cut rd ds (level + 1) a b q
  end.
(** mod.rs 1063-1080, 1194-1209 *)
Fixpoint wm_quantile_cut {T} (wr : N -> N -> T -> res T) (ds : list rsvec) (level a b k : N) (prefix : T) (q : N) : res T :=
  match ds with
  | [] => Ok prefix
  | d :: ds =>
      let* q := pay 2 q in
      let* zs := rs_rank0 d a in
      let* ze := rs_rank0 d b in
      let* zeros := sub ze zs in
      if k <? zeros then
        let* prefix := wr 0 level prefix in
        wm_quantile_cut wr ds (level + 1) zs ze k prefix q
      else
        let* prefix := wr 1 level prefix in
        let* k := sub k zeros in
        let* oa := sub a zs in
        let* ob := sub b ze in
        wm_quantile_cut wr ds (level + 1) (rrank0 d + oa) (rrank0 d + ob) k prefix q
  end.
Section Neighbour.
Context {T : Type}.
Variable rd : N -> res N.
Variable wr : N -> N -> T -> res T.
Variable quantile : N -> N -> N -> N -> T -> N -> res T.
(** mod.rs 1581-1654 *)
Fixpoint wm_pred_cut (ds : list rsvec) (level a b : N) (value : T) (fb : option (N * N * N * T)) (q : N) : res (option T) :=
  match ds with
  | [] => Ok (Some value)
  | d :: ds =>
      let* query_bit := rd level in
      let* q := pay 2 q in
      let* zs := rs_rank0 d a in
      let* ze := rs_rank0 d b in
      let* elements_zero := sub ze zs in
      if query_bit =? 0 then
        if elements_zero =? 0 then
          match fb with
          | None => Ok None
          | Some (l, ra, rb, prefix) =>
              let* m := sub rb ra in
              let* i := sub m 1 in
              let* prefix := wr 0 l prefix in
              let* v := quantile ra rb i (l + 1) prefix q in
              Ok (Some v)
          end
        else
          let* value := wr 0 level value in
          wm_pred_cut ds (level + 1) zs ze value fb q
      else
        let* m := sub b a in
        if elements_zero =? m then
          let* i := sub m 1 in
          let* v := quantile a b i level value q in
          Ok (Some v)
        else
          let fb := if zs <? ze then Some (level, zs, ze, value) else fb in
          let* value := wr 1 level value in
          let* oa := sub a zs in
          let* ob := sub b ze in
          wm_pred_cut ds (level + 1) (rrank0 d + oa) (rrank0 d + ob) value fb q
  end.
(** mod.rs 1765-1841 *)
Fixpoint wm_succ_cut (ds : list rsvec) (level a b : N) (value : T) (fb : option (N * N * N * T)) (q : N) : res (option T) :=
  match ds with
  | [] => Ok (Some value)
  | d :: ds =>
      let* query_bit := rd level in
      let* q := pay 2 q in
      let* zs := rs_rank0 d a in
      let* ze := rs_rank0 d b in
      let* elements_zero := sub ze zs in
      if query_bit =? 0 then
        if elements_zero =? 0 then
          let* v := quantile a b 0 level value q in
          Ok (Some v)
        else
          let* oa := sub a zs in
          let* ob := sub b ze in
          let fb := if rrank0 d + oa <? rrank0 d + ob then Some (level, rrank0 d + oa, rrank0 d + ob, value) else fb in
          let* value := wr 0 level value in
          wm_succ_cut ds (level + 1) zs ze value fb q
      else
        let* m := sub b a in
        if elements_zero =? m then
          match fb with
          | None => Ok None
          | Some (l, ra, rb, prefix) =>
              let* prefix := wr 1 l prefix in
              let* v := quantile ra rb 0 (l + 1) prefix q in
              Ok (Some v)
          end
        else
          let* value := wr 1 level value in
          let* oa := sub a zs in
          let* ob := sub b ze in
          wm_succ_cut ds (level + 1) (rrank0 d + oa) (rrank0 d + ob) value fb q
  end.
End Neighbour.

(** mod.rs 331-403 *)
Definition wm_get_value_cut (q : N) (w : wavelet) (i : N) : res (option bitvec) :=
  if (wm_bits w =? 0) || (wm_len w <=? i) then Ok None
  else
    let* level := sub (wm_bits w) 1 in
    let* '(value, _) :=
      wm_reconstruct_cut (fun bit '(value, level) =>
        let* value := bv_set_unchecked value level bit in Ok (value, level - 1))
        w i (bv_from_zeros (wm_bits w), level) q in
    Ok (Some value).
Definition wm_get_u64_cut (q : N) (w : wavelet) (i : N) : res (option N) :=
  if (64 <? wm_bits w) || (wm_bits w =? 0) || (wm_len w <=? i) then Ok None
  else let* v := wm_reconstruct_cut (fun bit v => Ok (N.lor (shl64 v 1) bit)) w i 0 q in Ok (Some v).
(** mod.rs 458-467, 520-526 *)
Definition wm_rank_range_cut (q : N) (w : wavelet) (a b : N) (symbol : bitvec) : res (option N) :=
  if (wm_len w <=? a) || (wm_len w <? b) || negb (blen symbol =? wm_bits w) then Ok None
  else let* r := wm_rank_cut (rd_bv w symbol) w 0 a b q in Ok (Some r).
Definition wm_rank_range_u64_cut (q : N) (w : wavelet) (a b symbol : N) : res (option N) :=
  if (wm_len w <=? a) || (wm_len w <? b) || (64 <? wm_bits w) then Ok None
  else let* r := wm_rank_cut (rd_u64 w symbol) w 0 a b q in Ok (Some r).
(** mod.rs 1052-1083, 1183-1212 *)
Definition wm_partial_quantile_cut (w : wavelet) (a b k start_level : N) (prefix : bitvec) (q : N) : res bitvec :=
  let* _ := assert (blen prefix =? wm_bits w) in
  let* _ := assert (a <? b) in
  let* _ := assert (b <=? wm_len w) in
  wm_quantile_cut (wr_ones w) (skipn (N.to_nat start_level) w) start_level a b k prefix q.
Definition wm_partial_quantile_u64_cut (w : wavelet) (a b k start_level prefix q : N) : res N :=
  let* _ := assert (wm_bits w <=? 64) in
  let* _ := assert (a <? b) in
  let* _ := assert (b <=? wm_len w) in
  wm_quantile_cut wr_u64 (skipn (N.to_nat start_level) w) start_level a b k prefix q.
(** mod.rs 1105-1111, 1234-1244 *)
Definition wm_quantile_query_cut (q : N) (w : wavelet) (a b k : N) : res (option bitvec) :=
  if (wm_len w <=? a) || (wm_len w <? b) then Ok None
  else
    let* n := sub b a in
    if n <=? k then Ok None
    else let* v := wm_partial_quantile_cut w a b k 0 (bv_from_zeros (wm_bits w)) q in Ok (Some v).
Definition wm_quantile_query_u64_cut (q : N) (w : wavelet) (a b k : N) : res (option N) :=
  if (wm_len w <=? a) || (wm_len w <? b) || (64 <? wm_bits w) then Ok None
  else
    let* n := sub b a in
    if n <=? k then Ok None
    else let* v := wm_partial_quantile_u64_cut w a b k 0 0 q in Ok (Some v).
(** mod.rs 1682-1748, 1869-1935 *)
Definition wm_predecessor_cut (q : N) (w : wavelet) (a b : N) (symbol : bitvec) : res (option bitvec) :=
  if negb (blen symbol =? wm_bits w) || negb (a <? b) || wm_is_empty w || (wm_len w <? b) then Ok None
  else wm_pred_cut (rd_bv w symbol) (wr_bv w) (wm_partial_quantile_cut w) w 0 a b (bv_from_zeros (wm_bits w)) None q.
Definition wm_predecessor_u64_cut (q : N) (w : wavelet) (a b symbol : N) : res (option N) :=
  if (64 <? wm_bits w) || negb (a <? b) || wm_is_empty w || (wm_len w <? b) then Ok None
  else wm_pred_cut (rd_u64 w symbol) wr_u64 (wm_partial_quantile_u64_cut w) w 0 a b 0 None q.
Definition wm_successor_cut (q : N) (w : wavelet) (a b : N) (symbol : bitvec) : res (option bitvec) :=
  if negb (blen symbol =? wm_bits w) || negb (a <? b) || wm_is_empty w || (wm_len w <? b) then Ok None
  else wm_succ_cut (rd_bv w symbol) (wr_bv w) (wm_partial_quantile_cut w) w 0 a b (bv_from_zeros (wm_bits w)) None q.
Definition wm_successor_u64_cut (q : N) (w : wavelet) (a b symbol : N) : res (option N) :=
  if (64 <? wm_bits w) || negb (a <? b) || wm_is_empty w || (wm_len w <? b) then Ok None
  else wm_succ_cut (rd_u64 w symbol) wr_u64 (wm_partial_quantile_u64_cut w) w 0 a b 0 None q.
