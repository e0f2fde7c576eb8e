(** * Step budgets of the remaining constructors, in the style of [CostBuildModel]. *)
From Verif Require Import Base BitVecModel RsVecModel GenIterModel EFModel SparseModel BpModel CostWaveletModel CostBuildModel.

(** [debug_assert!(l.windows(2).all(p))]: one step for each window up to the first bad one. *)
Fixpoint windows_q (p : N -> N -> bool) (l : list N) (q : N) : res (unit * N) :=
  match l with
  | a :: ((b :: _) as r) => let* q := pay 1 q in if p a b then windows_q p r q else Panic
  | _ => Ok (tt, q)
  end.

(** elias_fano/mod.rs 81-134 *)
Definition ef_from_slice_q (w : N) (data : list N) (q : N) : res (ef * N) :=
  if lenN data =? 0 then
    let* '(u, q) := rs_from_bit_vec_q bv_new q in Ok (mkef u bv_new 0 0 0 0, q)
  else
    let* '(_, q) := windows_q N.leb data q in
    let* zero := idx data 0 in
    let* last := idx data (lenN data - 1) in
    let* bound := sub last zero in
    let* _ := assert (w <? 64) in
    let* '(up, low, q) := forM_q (combine (range 0 (lenN data)) data)
      (bv_from_zeros (2 + lenN data + N.shiftr bound w), bv_new) (fun st iw => free (ef_push w zero st iw)) q in
    let* '(u, q) := rs_from_bit_vec_q up q in
    Ok (mkef u low zero last w (lenN data), q).

(** bit_vec/sparse.rs 65-76 *)
Definition sp_new_q (w : N) (input : list N) (len : N) (q : N) : res (sparse * N) :=
  let* '(_, q) := windows_q N.leb input q in
  let* '(_, q) := windows_q (fun a b => negb (a =? b)) input q in
  let* '(v, q) := ef_from_slice_q w input q in
  Ok (mksp v len, q).
(** Every call of [next] is a step. *)
Fixpoint gi_drain_q {A} (fuel : nat) (get : N -> res (option A)) (it : gen_iter) (q : N) : res (list A * N) :=
  match fuel with
  | O => Diverge
  | S fuel =>
      let* q := pay 1 q in
      let* '(it, o) := gi_next get it in
      match o with
      | None => Ok ([], q)
      | Some x => let* '(r, q) := gi_drain_q fuel get it q in Ok (x :: r, q)
      end
  end.
Definition sp_positions_q (b : N) (input : bitvec) (q : N) : res (list N * N) :=
  let* '(l, q) := gi_drain_q (S (N.to_nat (bv_length input))) (bv_get input) (gi_new (bv_length input)) q in
  Ok (map fst (filter (fun p => snd p =? b) (combine (range 0 (lenN l)) l)), q).
(** sparse.rs 83-95 *)
Definition sp_from_bitvec_q (w : N) (input : bitvec) (q : N) : res (sparse * N) :=
  let* '(l, q) := sp_positions_q 1 input q in sp_new_q w l (bv_length input) q.

(** trees/mmt.rs 86-115: every iteration of [loop] and of the inner loop is a step. *)
Fixpoint mmt_levels_q (fuel : nat) (nodes : list enode) (size start : N) (q : N) : res (list enode * N) :=
  match fuel with
  | O => Diverge
  | S fuel =>
      let* q := pay 1 q in
      let* '(nodes, q) := forM_q (range 0 size) nodes (fun nodes i => free (mmt_level_step start nodes i)) q in
      if size =? 1 then Ok (nodes, q)
      else let* start' := sub start (size / 2) in mmt_levels_q fuel nodes (size / 2) start' q
  end.
(** trees/mmt.rs 47-120 *)
Definition mmt_excess_tree_q (bv : bitvec) (B : N) (q : N) : res (list enode * N) :=
  if blen bv =? 0 then Ok ([], q)
  else
    let* _ := assert (negb (B =? 0)) in
    let leaves := div_ceil (blen bv) B in
    let internal := mmt_internal leaves in
    let* '(nodes, cur, q) := forM_q (range 0 (blen bv)) (replicate (leaves + internal) node0, mknode 0 I64MAX I64MIN)
      (fun st i => free (mmt_scan bv B internal st i)) q in
    let* nodes := set_idx nodes (internal + leaves - 1) cur in
    let size := N.max 1 (next_pow2 leaves / 2) in
    let* start := sub internal size in
    mmt_levels_q (S (N.to_nat (N.log2 size))) nodes size start q.
(** trees/bp/mod.rs 149-153 *)
Definition bp_from_bit_vector_q (B : N) (bv : bitvec) (q : N) : res (bptree * N) :=
  let* '(m, q) := mmt_excess_tree_q bv B q in
  let* '(rs, q) := rs_from_bit_vec_q bv q in
  Ok (mkbp rs m, q).
