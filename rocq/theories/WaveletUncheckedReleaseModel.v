(** * Release-build versions of the unchecked wavelet matrix queries.

    The loops are those of [ReleaseModel.v], where additions and subtractions wrap; the
    [debug_assert]s of the quantile functions are gone. *)
From Verif Require Import Base BitVecModel RsVecModel GenIterModel WaveletModel ReleaseModel.

(** wavelet/mod.rs 422-434, 486-498 *)
Definition wm_rank_range_unchecked_rel (w : wavelet) (a b : N) (symbol : bitvec) : res N :=
  wm_rank_loop_rel (rd_bv w symbol) w 0 a b.
Definition wm_rank_range_u64_unchecked_rel (w : wavelet) (a b symbol : N) : res N :=
  wm_rank_loop_rel (rd_u64 w symbol) w 0 a b.
(** wavelet/mod.rs 551-553, 618-620 *)
Definition wm_rank_offset_unchecked_rel (w : wavelet) (offset i : N) (symbol : bitvec) : res N :=
  wm_rank_range_unchecked_rel w offset i symbol.
Definition wm_rank_offset_u64_unchecked_rel (w : wavelet) (offset i symbol : N) : res N :=
  wm_rank_range_u64_unchecked_rel w offset i symbol.
(** wavelet/mod.rs 674-676, 725-727 *)
Definition wm_rank_unchecked_rel (w : wavelet) (i : N) (symbol : bitvec) : res N :=
  wm_rank_range_unchecked_rel w 0 i symbol.
Definition wm_rank_u64_unchecked_rel (w : wavelet) (i symbol : N) : res N :=
  wm_rank_range_u64_unchecked_rel w 0 i symbol.

(** wavelet/mod.rs 778-800, 858-880 *)
Definition wm_select_offset_unchecked_rel (w : wavelet) (offset rank : N) (symbol : bitvec) : res N :=
  wm_select_loop_rel (rd_bv w symbol) w offset rank.
Definition wm_select_offset_u64_unchecked_rel (w : wavelet) (offset rank symbol : N) : res N :=
  wm_select_loop_rel (rd_u64 w symbol) w offset rank.
(** wavelet/mod.rs 935-937, 990-992 *)
Definition wm_select_unchecked_rel (w : wavelet) (rank : N) (symbol : bitvec) : res N :=
  wm_select_offset_unchecked_rel w 0 rank symbol.
Definition wm_select_u64_unchecked_rel (w : wavelet) (rank symbol : N) : res N :=
  wm_select_offset_u64_unchecked_rel w 0 rank symbol.

(** wavelet/mod.rs 1040-1044 with 1052-1083, and 1172-1174 with 1183-1212 *)
Definition wm_quantile_unchecked_rel (w : wavelet) (a b k : N) : res bitvec :=
  wm_quantile_loop_rel (wr_ones w) w 0 a b k (bv_from_zeros (wm_bits w)).
Definition wm_quantile_u64_unchecked_rel (w : wavelet) (a b k : N) : res N :=
  wm_quantile_loop_rel wr_u64 w 0 a b k 0.
(** wavelet/mod.rs 1125-1127, 1259-1261 *)
Definition wm_get_sorted_unchecked_rel (w : wavelet) (i : N) : res bitvec :=
  wm_quantile_unchecked_rel w 0 (wm_len w) i.
Definition wm_get_sorted_u64_unchecked_rel (w : wavelet) (i : N) : res N :=
  wm_quantile_u64_unchecked_rel w 0 (wm_len w) i.
(** wavelet/mod.rs 1301-1303, 1341-1343 *)
Definition wm_range_min_unchecked_rel (w : wavelet) (a b : N) : res bitvec :=
  wm_quantile_unchecked_rel w a b 0.
Definition wm_range_min_u64_unchecked_rel (w : wavelet) (a b : N) : res N :=
  wm_quantile_u64_unchecked_rel w a b 0.
(** wavelet/mod.rs 1382-1385, 1428-1431 *)
Definition wm_range_max_unchecked_rel (w : wavelet) (a b : N) : res bitvec :=
  wm_quantile_unchecked_rel w a b (wrapping_sub (wrapping_sub b a) 1).
Definition wm_range_max_u64_unchecked_rel (w : wavelet) (a b : N) : res N :=
  wm_quantile_u64_unchecked_rel w a b (wrapping_sub (wrapping_sub b a) 1).
(** wavelet/mod.rs 1476-1479, 1527-1530 *)
Definition wm_range_median_unchecked_rel (w : wavelet) (a b : N) : res bitvec :=
  wm_quantile_unchecked_rel w a b (wrapping_sub (wrapping_sub b 1) a / 2).
Definition wm_range_median_u64_unchecked_rel (w : wavelet) (a b : N) : res N :=
  wm_quantile_u64_unchecked_rel w a b (wrapping_sub (wrapping_sub b 1) a / 2).
