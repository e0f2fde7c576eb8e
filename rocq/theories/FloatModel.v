(** * Model of [(n as f64).log2().ceil() as usize] (elias_fano/mod.rs 106-108, trees/mmt.rs 53).

    The conversion, [ceil] and the cast back are exact models of IEEE 754 double precision. The
    result of [log2] is not fixed by Rust or IEEE 754, so it is a parameter [lg], of which
    [log2_within_ulp] says how precise it is. *)
From Verif Require Import Base BaseFacts EFModel BpModel.

(** [n as f64] for [n < 2^64]: exact below 2^53, else the nearest multiple of a power of two that
    leaves 53 significant bits, ties to an even multiple. *)
Definition f64_of (n : N) : N :=
  if n <? 2 ^ 53 then n
  else
    let s := N.log2 n - 52 in
    let q := n / 2 ^ s in
    let r := n mod 2 ^ s in
    let h := 2 ^ (s - 1) in
    (if (h <? r) || ((h =? r) && N.odd q) then q + 1 else q) * 2 ^ s.

(** Numbers in [2^e, 2^(e+1)] are represented in steps of [2^(e-52)], so the doubles around
    [log2 x], for [x >= 2], are the multiples of [1 / 2^(grid x)]. *)
Definition grid (x : N) : N := 52 - N.log2 (N.log2 x).

(** [lg x] is the returned multiple: [log2] returns [lg x / 2^(grid x)]. Its error is less than one
    step: [lg x - 1 < 2^(grid x) * log2 x < lg x + 1], written without logarithms. *)
Definition log2_within_ulp (lg : N -> N) : Prop :=
  lg 1 = 0 /\
  forall x, 2 <= x <= 2 ^ 64 ->
    2 ^ (lg x - 1) < x ^ (2 ^ grid x) /\ x ^ (2 ^ grid x) < 2 ^ (lg x + 1).

(** A correctly rounded [log2]: the error is at most half a step. *)
Definition log2_nearest (lg : N -> N) : Prop :=
  lg 1 = 0 /\
  forall x, 2 <= x <= 2 ^ 64 ->
    2 ^ (2 * lg x - 1) <= x ^ (2 ^ (grid x + 1)) /\ x ^ (2 ^ (grid x + 1)) <= 2 ^ (2 * lg x + 1).

(** [(n as f64).log2().ceil() as usize] *)
Definition f64_log2_ceil (lg : N -> N) (n : N) : N :=
  let x := f64_of n in (lg x + (2 ^ grid x - 1)) / 2 ^ grid x.

(** elias_fano/mod.rs 104-109 *)
Definition ef_width_f64 (lg : N -> N) (data : list N) : res N :=
  let bound := nthN 0 data (lenN data - 1) - nthN 0 data 0 in
  sub (N.max (f64_log2_ceil lg (N.max bound 2)) (f64_log2_ceil lg (lenN data + 2)))
      (f64_log2_ceil lg (N.max (lenN data) 2)).

(** trees/mmt.rs 53 *)
Definition mmt_internal_f64 (lg : N -> N) (num_leaves : N) : N :=
  N.max 1 (2 ^ f64_log2_ceil lg num_leaves - 1).
