(** * Model of src/trees: lookup tables, min-max tree, [BpTree], [BpBuilder].

    Excess values are [Z] with the bounds of [i64] checked wherever the caller's relative excess
    takes part; sums of excesses of stored bits are bounded by the length and left unchecked. *)
From Verif Require Import Base Spec BitVecModel RsVecModel IterSpec RsIterModel.

(** [i64] overflow check. *)
Definition i64 (z : Z) : res Z :=
  if ((-9223372036854775808 <=? z) && (z <=? 9223372036854775807))%Z then Ok z else Panic.

(** ** trees/bp/lookup_query.rs (the default lookup module, 8-bit blocks) *)
Section LookupQuery.
Local Open Scope Z_scope.

(** lookup_query.rs 167-170 and 176-179: branchless minimum and maximum on [i8]. *)
Definition i8_min (a b : Z) : Z := b + Z.land (a - b) (- Z.shiftr ((a - b) mod 256) 7).
Definition i8_max (a b : Z) : Z := a - Z.land (a - b) (- Z.shiftr ((a - b) mod 256) 7).

(** Loop state of lookup_query.rs 86-137: total, minimum and maximum excess, query map. *)
Record lq_st := mklq { q_total : Z; q_min : Z; q_max : Z; q_map : list Z }.
Definition lq_step (up down : Z) (v : N) (s : lq_st) (i : N) : res lq_st :=
  let total := q_total s + (if N.testbit v i then up else down) in
  let mn := i8_min (q_min s) total in
  let mx := i8_max (q_max s) total in
  let* q := idx (q_map s) (Z.to_N (total + 8)) in
  let* qm := if q =? -1 then set_idx (q_map s) (Z.to_N (total + 8)) (Z.of_N i) else Ok (q_map s) in
  Ok (mklq total mn mx qm).
(** lookup_query.rs 86-109 *)
Definition calculate_values_fwd (v : N) (s : lq_st) : res lq_st := forM (range 0 8) s (lq_step 1 (-1) v).
(** lookup_query.rs 114-137 *)
Definition calculate_values_bwd (v : N) (s : lq_st) : res lq_st := forM (rev (range 0 8)) s (lq_step (-1) 1 v).

(** lookup_query.rs 63-75: the encoded entry; the query map is reset on the way. *)
Definition lq_encode (s : lq_st) : res (N * list Z) :=
  let e0 := N.lor (N.shiftl (N.land (Z.to_N ((q_min s + 8) mod 2 ^ 64)) 31) 5)
                  (N.land (Z.to_N ((q_max s + 8) mod 2 ^ 64)) 31) in
  forM (range 0 17) (e0, q_map s) (fun '(e, qm) r =>
    let* q := idx qm r in
    let* qm' := set_idx qm r (-1) in
    Ok (N.lor e (N.shiftl (Z.to_N (Z.land q 7)) (10 + r * 3)), qm')).

(** lookup_query.rs 45-82; the table starts with zeros and is filled in order. *)
Definition calculate_lookup_table (fwd : bool) : res (list N) :=
  let* '(tab, _) :=
    forM (range 0 256) (replicate 256 0%N, replicate 17 (-1)) (fun '(tab, qm) v =>
      let s := mklq 0 9 (-9) qm in
      let* s := if fwd then calculate_values_fwd v s else calculate_values_bwd v s in
      let* '(e, qm') := lq_encode s in
      let* tab' := set_idx tab v e in
      Ok (tab', qm')) in
  Ok tab.
(** lookup_query.rs 25 and 32 *)
Definition PAREN_BLOCK_LOOKUP_FWD : res (list N) := calculate_lookup_table true.
Definition PAREN_BLOCK_LOOKUP_BWD : res (list N) := calculate_lookup_table false.

(** lookup_query.rs 142-145 *)
Definition answer_query (entry : N) (rel : Z) : res N :=
  let* _ := assert (Z.abs rel <=? 8) in
  Ok (N.land (N.shiftr entry (10 + Z.to_N (rel + 8) * 3)) 7).
(** lookup_query.rs 151-161 *)
Definition get_minimum_excess (entry : N) : Z := Z.of_N (N.land (N.shiftr entry 5) 31) - 8.
Definition get_maximum_excess (entry : N) : Z := Z.of_N (N.land entry 31) - 8.
(** lookup_query.rs 183-185 *)
Definition lookup_total_excess (w block : N) : Z := Z.of_N (popcount block) - Z.of_N (w - popcount block).

(** lookup_query.rs 200-215; [inr] is [Ok(index)], [inl] is [Err(())] with the updated excess. *)
Definition lq_process_fwd (block : N) (rel : Z) : res (Z + N) :=
  let* tab := PAREN_BLOCK_LOOKUP_FWD in
  let* e := idx tab block in
  if (rel <=? get_maximum_excess e) && (get_minimum_excess e <=? rel) then
    let* i := answer_query e rel in Ok (inr i)
  else let* rel' := i64 (rel - lookup_total_excess 8 block) in Ok (inl rel').
(** lookup_query.rs 218-235 *)
Definition lq_process_bwd (block : N) (rel : Z) : res (Z + N) :=
  let total := lookup_total_excess 8 block in
  let* sum := i64 (rel + total) in
  let* tab := PAREN_BLOCK_LOOKUP_FWD in
  let* e := idx tab block in
  if (sum =? 0) || ((get_minimum_excess e <=? sum) && (sum <=? get_maximum_excess e)) then
    let* tab' := PAREN_BLOCK_LOOKUP_BWD in
    let* e' := idx tab' block in
    let* i := answer_query e' rel in Ok (inr i)
  else Ok (inl sum).
End LookupQuery.

(** The interface that bp/mod.rs imports from one of the two lookup modules (mod.rs 23-31). *)
Record lookup := mklookup {
  lk_size : N;                          (* LOOKUP_BLOCK_SIZE *)
  lk_fwd : N -> Z -> res (Z + N);       (* process_block_fwd *)
  lk_bwd : N -> Z -> res (Z + N)        (* process_block_bwd *)
}.
Definition lookup8 : lookup := mklookup 8 lq_process_fwd lq_process_bwd.

(** ** trees/mmt.rs *)
Record enode := mknode { ntotal : Z; nmin : Z; nmax : Z }.
Definition node0 : enode := mknode 0 0 0.

(** [a.div_ceil(b)], [a.next_power_of_two()] *)
Definition div_ceil (a b : N) : N := (a + b - 1) / b.
Definition next_pow2 (a : N) : N := 2 ^ N.log2_up a.

(** mmt.rs 53; the logarithm is taken exactly ([FloatModel] has the [f64] version; C101 shows
    that it is the same for fewer than 2^48 leaves). *)
Definition mmt_internal (num_leaves : N) : N := N.max 1 (2 ^ N.log2_up num_leaves - 1).

(** mmt.rs 56-79: state of the scan: nodes, total, minimum, maximum. *)
Definition I64MAX : Z := 9223372036854775807.
Definition I64MIN : Z := -9223372036854775808.
Definition mmt_scan (bv : bitvec) (B internal : N) (st : list enode * enode) (i : N) : res (list enode * enode) :=
  let '(nodes, cur) := st in
  let* '(nodes, cur) :=
    if (0 <? i) && (i mod B =? 0) then
      let* k := sub (internal + i / B) 1 in
      let* nodes' := set_idx nodes k cur in
      Ok (nodes', mknode 0 I64MAX I64MIN)
    else Ok (nodes, cur) in
  let* bit := bv_is_bit_set_unchecked bv i in
  let total := (ntotal cur + (if bit then 1 else -1))%Z in
  Ok (nodes, mknode total (Z.min (nmin cur) total) (Z.max (nmax cur) total)).

(** mmt.rs 90-105: one node of a level. *)
Definition mmt_combine (l r : enode) : enode :=
  mknode (ntotal l + ntotal r) (Z.min (nmin l) (ntotal l + nmin r)) (Z.max (nmax l) (ntotal l + nmax r)).
Definition mmt_level_step (start : N) (nodes : list enode) (i : N) : res (list enode) :=
  let li := (start + i) * 2 + 1 in
  let ri := (start + i) * 2 + 2 in
  if li <? lenN nodes then
    if ri <? lenN nodes then
      let* l := idx nodes li in
      let* r := idx nodes ri in
      set_idx nodes (start + i) (mmt_combine l r)
    else
      let* l := idx nodes li in
      set_idx nodes (start + i) l
  else Ok nodes.
(** mmt.rs 86-115 *)
Fixpoint mmt_levels (fuel : nat) (nodes : list enode) (size start : N) : res (list enode) :=
  match fuel with
  | O => Diverge
  | S fuel =>
      let* nodes := forM (range 0 size) nodes (mmt_level_step start) in
      if size =? 1 then Ok nodes
      else let* start' := sub start (size / 2) in mmt_levels fuel nodes (size / 2) start'
  end.
(** mmt.rs 47-120 *)
Definition mmt_excess_tree (bv : bitvec) (B : N) : res (list enode) :=
  if blen bv =? 0 then Ok []
  else
    let* _ := assert (negb (B =? 0)) in   (* division by zero in div_ceil *)
    let leaves := div_ceil (blen bv) B in
    let internal := mmt_internal leaves in
    let* '(nodes, cur) := forM (range 0 (blen bv)) (replicate (leaves + internal) node0, mknode 0 I64MAX I64MIN) (mmt_scan bv B internal) in
    let* nodes := set_idx nodes (internal + leaves - 1) cur in
    let size := N.max 1 (next_pow2 leaves / 2) in
    let* start := sub internal size in
    mmt_levels (S (N.to_nat (N.log2 size))) nodes size start.

(** mmt.rs 134-188 *)
Definition mmt_parent (nodes : list enode) (i : N) : option N := if i <? lenN nodes then Some ((i - 1) / 2) else None.
Definition mmt_left_child (nodes : list enode) (i : N) : option N := if i * 2 + 1 <? lenN nodes then Some (i * 2 + 1) else None.
Definition mmt_right_child (nodes : list enode) (i : N) : option N := if i * 2 + 2 <? lenN nodes then Some (i * 2 + 2) else None.
Definition mmt_right_sibling (nodes : list enode) (i : N) : option N :=
  if i mod 2 =? 1 then if lenN nodes <=? i + 1 then None else Some (i + 1) else None.
Definition mmt_left_sibling (i : N) : option N :=
  if i mod 2 =? 0 then if i - 1 =? 0 then None else Some (i - 1) else None.
Definition mmt_is_left_child (i : N) : bool := i mod 2 =? 1.
(** mmt.rs 191-197 *)
Definition mmt_first_leaf (nodes : list enode) : res N :=
  let* _ := assert (negb (lenN nodes =? 0)) in
  if lenN nodes =? 2 then Ok 1 else sub (next_pow2 (div_ceil (lenN nodes) 2)) 1.
(** mmt.rs 202-204 *)
Definition mmt_is_leaf (nodes : list enode) (i : N) : res bool :=
  let* f := mmt_first_leaf nodes in Ok (f <=? i).

(** mmt.rs 300-337 *)
Fixpoint mmt_fwd_down (fuel : nat) (nodes : list enode) (node : N) (rel : Z) : res (option (N * Z)) :=
  match fuel with
  | O => Diverge
  | S fuel =>
      let* _ := assert (node <? lenN nodes) in
      let* leaf := mmt_is_leaf nodes node in
      if leaf then Ok (if node =? 0 then None else Some (node, rel))
      else
        match mmt_left_child nodes node with
        | None => Panic
        | Some l =>
            let* nl := idx nodes l in
            if ((nmin nl <=? rel) && (rel <=? nmax nl))%Z then mmt_fwd_down fuel nodes l rel
            else
              match mmt_right_child nodes node with
              | None => Panic
              | Some r =>
                  let* rel := i64 (rel - ntotal nl) in
                  let* nr := idx nodes r in
                  if ((nmin nr <=? rel) && (rel <=? nmax nr))%Z then mmt_fwd_down fuel nodes r rel else Panic
              end
        end
  end.

(** mmt.rs 252-295 *)
Fixpoint mmt_fwd_up (fuel : nat) (nodes : list enode) (node : N) (rel : Z) : res (option (N * Z)) :=
  match fuel with
  | O => Diverge
  | S fuel =>
      let* _ := assert (node <? lenN nodes) in
      if negb (mmt_is_left_child node) then
        match mmt_parent nodes node with
        | None => Panic
        | Some p => if p =? 0 then Ok None else mmt_fwd_up fuel nodes p rel
        end
      else
        match mmt_right_sibling nodes node with
        | None => Ok None
        | Some s =>
            let* ns := idx nodes s in
            if ((nmin ns <=? rel) && (rel <=? nmax ns))%Z then mmt_fwd_down (length nodes) nodes s rel
            else
              match mmt_parent nodes node with
              | None => Panic
              | Some p =>
                  if p =? 0 then Ok None
                  else let* rel := i64 (rel - ntotal ns) in mmt_fwd_up fuel nodes p rel
              end
        end
  end.

(** mmt.rs 216-226 *)
Definition mmt_fwd_search (nodes : list enode) (begin : N) (rel : Z) : res (option (N * Z)) :=
  let* f := mmt_first_leaf nodes in
  if lenN nodes <=? begin + f then Ok None
  else
    let* _ := assert (negb (begin + f =? 0)) in
    let* r := mmt_fwd_up (length nodes) nodes (begin + f) rel in
    match r with
    | None => Ok None
    | Some (node, rel) => let* b := sub node f in Ok (Some (b, rel))
    end.

(** mmt.rs 363-367, 407-411, 418-422: the test whether a backward search ends in a node. *)
Definition mmt_bwd_test (n : enode) (rel : Z) : res bool :=
  let* sum := i64 (rel + ntotal n) in
  Ok ((sum =? 0) || ((nmin n <=? sum) && (sum <=? nmax n)))%Z.

(** mmt.rs 392-435 *)
Fixpoint mmt_bwd_down (fuel : nat) (nodes : list enode) (node : N) (rel : Z) : res (option (N * Z)) :=
  match fuel with
  | O => Diverge
  | S fuel =>
      let* _ := assert (node <? lenN nodes) in
      let* leaf := mmt_is_leaf nodes node in
      if leaf then Ok (if node =? 0 then None else Some (node, rel))
      else
        match mmt_right_child nodes node with
        | None => Panic
        | Some r =>
            let* nr := idx nodes r in
            let* t := mmt_bwd_test nr rel in
            if t then mmt_bwd_down fuel nodes r rel
            else
              match mmt_left_child nodes node with
              | None => Panic
              | Some l =>
                  let* rel := i64 (rel + ntotal nr) in
                  let* nl := idx nodes l in
                  let* t := mmt_bwd_test nl rel in
                  if t then mmt_bwd_down fuel nodes l rel else Panic
              end
        end
  end.

(** mmt.rs 342-387 *)
Fixpoint mmt_bwd_up (fuel : nat) (nodes : list enode) (node : N) (rel : Z) : res (option (N * Z)) :=
  match fuel with
  | O => Diverge
  | S fuel =>
      let* _ := assert (node <? lenN nodes) in
      if mmt_is_left_child node then
        match mmt_parent nodes node with
        | None => Panic
        | Some p => if p =? 0 then Ok None else mmt_bwd_up fuel nodes p rel
        end
      else
        match mmt_left_sibling node with
        | None => Ok None
        | Some s =>
            let* ns := idx nodes s in
            let* t := mmt_bwd_test ns rel in
            if t then mmt_bwd_down (length nodes) nodes s rel
            else
              match mmt_parent nodes node with
              | None => Panic
              | Some p =>
                  if p =? 0 then Ok None
                  else let* rel := i64 (rel + ntotal ns) in mmt_bwd_up fuel nodes p rel
              end
        end
  end.

(** mmt.rs 238-247 *)
Definition mmt_bwd_search (nodes : list enode) (begin : N) (rel : Z) : res (option (N * Z)) :=
  let* f := mmt_first_leaf nodes in
  if lenN nodes <=? begin + f then Ok None
  else
    let* _ := assert (negb (begin + f =? 0)) in
    let* r := mmt_bwd_up (length nodes) nodes (begin + f) rel in
    match r with
    | None => Ok None
    | Some (node, rel) => let* b := sub node f in Ok (Some (b, rel))
    end.

(** ** trees/bp/mod.rs *)
Record bptree := mkbp { bp_vec : rsvec; bp_mmt : list enode }.

(** mod.rs 149-153 *)
Definition bp_from_bit_vector (B : N) (bv : bitvec) : res bptree :=
  let* m := mmt_excess_tree bv B in
  let* rs := rs_from_bit_vec bv in
  Ok (mkbp rs m).

(** [(a..b).step_by(w)] *)
Definition steps (a b w : N) : list N := map (fun q => a + q * w) (range 0 (div_ceil (b - a) w)).

(** mod.rs 207-214 and 236-243 *)
Definition scan_fwd (rs : rsvec) (rel : Z) (i : N) : res (Z + N) :=
  let* bit := rs_get_unchecked rs i in
  let* rel := i64 (rel - (if bit =? 1 then 1 else -1)) in
  Ok (if (rel =? 0)%Z then inr i else inl rel).
(** mod.rs 308-315 *)
Definition scan_bwd (rs : rsvec) (rel : Z) (i : N) : res (Z + N) :=
  let* bit := rs_get_unchecked rs i in
  let* rel := i64 (rel + (if bit =? 1 then 1 else -1)) in
  Ok (if (rel =? 0)%Z then inr i else inl rel).
(** mod.rs 222-232 and 317-330: one table lookup; the conversion to the block type must succeed. *)
Definition look_step (w : N) (process : N -> Z -> res (Z + N)) (rs : rsvec) (rel : Z) (i : N) : res (Z + N) :=
  let* v := limbs_get_bits_unchecked (rdata rs) i w in
  let* _ := assert (v <? 2 ^ w) in
  let* r := process v rel in
  Ok (match r with inl rel => inl rel | inr k => inr (i + k) end).

Section BpTree.
Variable lk : lookup.
Variable B : N.

(** mod.rs 194-246 *)
Definition bp_fwd_search_block (t : bptree) (start block : N) (rel : Z) : res (Z + N) :=
  let rs := bp_vec t in
  let boundary := N.min ((block + 1) * B) (rlen rs) in
  let lb := N.min (div_ceil (start + 1) (lk_size lk) * lk_size lk) boundary in
  let* r := forM_ret (range (start + 1) lb) rel (scan_fwd rs) in
  match r with
  | inr i => Ok (inr i)
  | inl rel =>
      let ub := N.max lb (boundary / lk_size lk * lk_size lk) in
      let* r := forM_ret (steps lb ub (lk_size lk)) rel (look_step (lk_size lk) (lk_fwd lk) rs) in
      match r with
      | inr i => Ok (inr i)
      | inl rel => forM_ret (range ub boundary) rel (scan_fwd rs)
      end
  end.

(** mod.rs 163-185; [block * BLOCK_SIZE - 1] is written with [start + 1] in the callee. *)
Definition bp_fwd_search (t : bptree) (index : N) (rel : Z) : res (option N) :=
  let* last := sub (rlen (bp_vec t)) 1 in
  if last <=? index then Ok None
  else
    let block := (index + 1) / B in
    let* r := bp_fwd_search_block t index block rel in
    match r with
    | inr i => Ok (Some i)
    | inl rel =>
        let* o := mmt_fwd_search (bp_mmt t) block rel in
        match o with
        | None => Ok None
        | Some (block, rel) =>
            let* start := sub (block * B) 1 in
            let* r := bp_fwd_search_block t start block rel in
            Ok (match r with inr i => Some i | inl _ => None end)
        end
    end.

(** mod.rs 295-333 *)
Definition bp_bwd_search_block (t : bptree) (start block : N) (rel : Z) : res (Z + N) :=
  let rs := bp_vec t in
  let boundary := N.min (block * B) (rlen rs) in
  let* s1 := sub start 1 in
  let lb := N.max (s1 / lk_size lk * lk_size lk) boundary in
  let* r := forM_ret (rev (range lb start)) rel (scan_bwd rs) in
  match r with
  | inr i => Ok (inr i)
  | inl rel => forM_ret (rev (steps boundary lb (lk_size lk))) rel (look_step (lk_size lk) (lk_bwd lk) rs)
  end.

(** mod.rs 256-286 *)
Definition bp_bwd_search (t : bptree) (index : N) (rel : Z) : res (option N) :=
  if rlen (bp_vec t) <=? index then Ok None
  else if index =? 0 then Ok None
  else
    let block := (index - 1) / B in
    let* r := bp_bwd_search_block t index block rel in
    match r with
    | inr i => Ok (Some i)
    | inl rel =>
        let* o := mmt_bwd_search (bp_mmt t) block rel in
        match o with
        | None => Ok None
        | Some (block, rel) =>
            let* r := bp_bwd_search_block t ((block + 1) * B) block rel in
            Ok (match r with inr i => Some i | inl _ => None end)
        end
    end.

(** mod.rs 339-345, 351-357, 363-376 *)
Definition bp_close (t : bptree) (index : N) : res (option N) :=
  if rlen (bp_vec t) <=? index then Ok None else bp_fwd_search t index (-1).
Definition bp_open (t : bptree) (index : N) : res (option N) :=
  if rlen (bp_vec t) <=? index then Ok None else bp_bwd_search t index (-1).
Definition bp_enclose (t : bptree) (index : N) : res (option N) :=
  if rlen (bp_vec t) <=? index then Ok None
  else
    let* bit := rs_get_unchecked (bp_vec t) index in
    bp_bwd_search t index (if bit =? 1 then -1 else -2).

(** mod.rs 382-385 *)
Definition bp_excess (t : bptree) (index : N) : res Z :=
  let* _ := assert (index <? rlen (bp_vec t)) in
  let* r1 := rs_rank1 (bp_vec t) (index + 1) in
  let* r0 := rs_rank0 (bp_vec t) (index + 1) in
  Ok (Z.of_N r1 - Z.of_N r0)%Z.

(** [debug_assert!(self.vec.get(node) == Some(OPEN_PAREN))] *)
Definition bp_assert_node (t : bptree) (node : N) : res unit :=
  let* o := rs_get (bp_vec t) node in
  assert (match o with Some b => b =? 1 | None => false end).

(** mod.rs 549-555 *)
Definition bp_root (t : bptree) : option N := if rlen (bp_vec t) =? 0 then None else Some 0.
(** mod.rs 557-564 *)
Definition bp_parent (t : bptree) (node : N) : res (option N) :=
  let* _ := bp_assert_node t node in bp_enclose t node.
(** mod.rs 566-579 *)
Definition bp_first_child (t : bptree) (node : N) : res (option N) :=
  let* _ := bp_assert_node t node in
  let* o := rs_get (bp_vec t) (node + 1) in
  Ok (match o with Some b => if b =? 1 then Some (node + 1) else None | None => None end).
(** mod.rs 581-591 *)
Definition bp_next_sibling (t : bptree) (node : N) : res (option N) :=
  let* _ := bp_assert_node t node in
  let* c := bp_close t node in
  match c with
  | None => Ok None
  | Some i =>
      let* o := rs_get (bp_vec t) (i + 1) in
      Ok (match o with Some b => if b =? 1 then Some (i + 1) else None | None => None end)
  end.
(** mod.rs 593-609 *)
Definition bp_previous_sibling (t : bptree) (node : N) : res (option N) :=
  let* _ := bp_assert_node t node in
  if node =? 0 then Ok None
  else
    let* o := rs_get (bp_vec t) (node - 1) in
    match o with
    | None => Ok None
    | Some b => if b =? 0 then bp_open t (node - 1) else Ok None
    end.
(** mod.rs 611-627 *)
Definition bp_last_child (t : bptree) (node : N) : res (option N) :=
  let* _ := bp_assert_node t node in
  let* o := rs_get (bp_vec t) (node + 1) in
  match o with
  | None => Ok None
  | Some b =>
      if b =? 1 then
        let* c := bp_close t node in
        match c with
        | None => Ok None
        | Some i => let* i1 := sub i 1 in bp_open t i1
        end
      else Ok None
  end.
(** mod.rs 629-635, 637-639 *)
Definition bp_node_index (t : bptree) (node : N) : res N :=
  let* _ := bp_assert_node t node in rs_rank1 (bp_vec t) node.
Definition bp_node_handle (t : bptree) (index : N) : res N := rs_select1 (bp_vec t) index.
(** mod.rs 641-647 *)
Definition bp_is_leaf (t : bptree) (node : N) : res bool :=
  let* _ := bp_assert_node t node in
  let* o := rs_get (bp_vec t) (node + 1) in
  Ok (match o with Some b => b =? 0 | None => false end).
(** mod.rs 649-656: [try_into().unwrap_or(0)] and [saturating_sub]. *)
Definition bp_depth (t : bptree) (node : N) : res N :=
  let* _ := bp_assert_node t node in
  let* e := bp_excess t node in
  Ok ((if (0 <=? e)%Z then Z.to_N e else 0) - 1).
(** mod.rs 658-664 *)
Definition bp_size (t : bptree) : res N := rs_rank1 (bp_vec t) (rlen (bp_vec t)).
Definition bp_is_empty (t : bptree) : bool := rlen (bp_vec t) =? 0.
(** mod.rs 668-684 *)
Definition bp_is_ancestor (t : bptree) (a d : N) : res (option bool) :=
  let* _ := bp_assert_node t a in
  let* _ := bp_assert_node t d in
  let* c := bp_close t a in
  Ok (match c with None => None | Some c => Some ((a <=? d) && (d <? c)) end).

(** [level as i64] *)
Definition as_i64 (n : N) : Z := if n <? 2 ^ 63 then Z.of_N n else (Z.of_N n - 2 ^ 64)%Z.
(** mod.rs 688-696 *)
Definition bp_level_ancestor (t : bptree) (node level : N) : res (option N) :=
  if level =? 0 then Ok (Some node)
  else let* d := i64 (- as_i64 level) in bp_bwd_search t node d.
(** mod.rs 698-700 *)
Definition bp_level_next (t : bptree) (node : N) : res (option N) :=
  let* c := bp_close t node in
  match c with None => Ok None | Some c => bp_fwd_search t c 1 end.
(** mod.rs 702-704 *)
Definition bp_level_prev (t : bptree) (node : N) : res (option N) :=
  let* c := bp_bwd_search t node 1 in
  match c with None => Ok None | Some c => bp_open t c end.
(** mod.rs 706-715 *)
Definition bp_level_leftmost (t : bptree) (level : N) : res (option N) :=
  if level =? 0 then Ok (Some 0) else bp_fwd_search t 0 (as_i64 level).
(** mod.rs 717-721 *)
Definition bp_level_rightmost (t : bptree) (level : N) : res (option N) :=
  let* s := bp_size t in
  let* last := sub (s * 2) 1 in
  let* c := bp_bwd_search t last (as_i64 level) in
  match c with None => Ok None | Some c => bp_open t c end.
(** mod.rs 725-733 *)
Definition bp_subtree_size (t : bptree) (node : N) : res (option N) :=
  let* _ := bp_assert_node t node in
  let* c := bp_close t node in
  match c with
  | None => Ok None
  | Some c =>
      let* r1 := rs_rank1 (bp_vec t) c in
      let* r0 := rs_rank1 (bp_vec t) node in
      let* d := sub r1 r0 in Ok (Some d)
  end.

(** *** Iterators. A list of all items is collected by calling [next] until it returns [None]. *)
Fixpoint collect {S A} (fuel : nat) (next : S -> res (S * option A)) (s : S) : res (list A) :=
  match fuel with
  | O => Diverge
  | S fuel =>
      let* '(s, o) := next s in
      match o with
      | None => Ok []
      | Some x => let* r := collect fuel next s in Ok (x :: r)
      end
  end.
(** [Option::unwrap] of the item mapped by [self.open] (mod.rs 422, 471) *)
Definition bp_open_item (t : bptree) (n : N) : res N :=
  let* o := bp_open t n in match o with Some x => Ok x | None => Panic end.
Definition map_next {S A C} (next : S -> res (S * option A)) (f : A -> res C) (s : S) : res (S * option C) :=
  let* '(s, o) := next s in
  match o with
  | None => Ok (s, None)
  | Some x => let* y := f x in Ok (s, Some y)
  end.
(** std's [Skip]: the first call of [next] uses [nth]; std's [Take] counts down. *)
Definition skip_next {S A} (next : S -> res (S * option A)) (nth : S -> N -> res (S * option A)) (st : S * N)
  : res ((S * N) * option A) :=
  let '(s, n) := st in
  if 0 <? n then let* '(s, o) := nth s n in Ok ((s, 0), o)
  else let* '(s, o) := next s in Ok ((s, 0), o).
Definition take_next {S A} (next : S -> res (S * option A)) (st : S * N) : res ((S * N) * option A) :=
  let '(s, n) := st in
  if n =? 0 then Ok ((s, 0), None)
  else let* '(s, o) := next s in Ok ((s, n - 1), o).

Definition bp_fuel (t : bptree) : nat := S (N.to_nat (rlen (bp_vec t))).
(** mod.rs 396-412: [iter], [dfs_iter] are [iter1] of the vector; also mod.rs 740-742. *)
Definition bp_dfs_iter (t : bptree) : res sel_iter := sel_new false (bp_vec t).
Definition bp_dfs_list (t : bptree) : res (list N) :=
  let* it := bp_dfs_iter t in collect (bp_fuel t) (sel_next false (bp_vec t)) it.
(** mod.rs 419-423 *)
Definition bp_dfs_post_list (t : bptree) : res (list N) :=
  let* it := sel_new true (bp_vec t) in
  collect (bp_fuel t) (map_next (sel_next true (bp_vec t)) (bp_open_item t)) it.
(** mod.rs 430-444 *)
Definition bp_subtree_list (t : bptree) (node : N) : res (list N) :=
  let rs := bp_vec t in
  let* _ := bp_assert_node t node in
  let* index := rs_rank1 rs node in
  let* c := bp_close t node in
  let close := match c with Some c => c | None => node end in
  let* r := rs_rank1 rs close in
  let* size := sub r index in
  let* it := sel_new false rs in
  collect (bp_fuel t) (take_next (skip_next (sel_next false rs) (sel_nth false rs))) ((it, index), size).
(** mod.rs 454-472 *)
Definition bp_subtree_post_list (t : bptree) (node : N) : res (list N) :=
  let rs := bp_vec t in
  let* _ := bp_assert_node t node in
  let* index := rs_rank0 rs node in
  let* c := bp_close t node in
  let close := match c with Some c => c | None => node end in
  let* r := rs_rank0 rs close in
  let* size := sub (r + 1) index in
  let* it := sel_new true rs in
  collect (bp_fuel t)
    (map_next (take_next (skip_next (sel_next true rs) (sel_nth true rs))) (bp_open_item t)) ((it, index), size).
(** mod.rs 789-798 *)
Definition bp_children_next (forward : bool) (t : bptree) (cur : option N) : res (option N * option N) :=
  match cur with
  | None => Ok (None, None)
  | Some c =>
      let* next := if forward then bp_next_sibling t c else bp_previous_sibling t c in
      Ok (next, Some c)
  end.
(** mod.rs 479-506 and 772-781 *)
Definition bp_children_list (forward : bool) (t : bptree) (node : N) : res (list N) :=
  let* _ := bp_assert_node t node in
  let* first := if forward then bp_first_child t node else bp_last_child t node in
  collect (bp_fuel t) (bp_children_next forward t) first.

(** mod.rs 534-536, 751-761 *)
Definition bp_into_parentheses_vec (t : bptree) : rsvec := bp_vec t.
Definition bp_into_bit_vec (t : bptree) : bitvec := rs_into_bit_vec (bp_into_parentheses_vec t).

(** ** trees/bp/builder.rs 10-61; [i64] counters of calls are left unchecked. *)
Record bpbuilder := mkbb { bb_excess : Z; bb_vec : bitvec }.
Definition bb_new : bpbuilder := mkbb 0 bv_new.
Definition bb_enter (b : bpbuilder) : res bpbuilder :=
  let* v := bv_append_bit (bb_vec b) 1 in Ok (mkbb (bb_excess b + 1) v).
Definition bb_leave (b : bpbuilder) : res bpbuilder :=
  let* v := bv_append_bit (bb_vec b) 0 in Ok (mkbb (bb_excess b - 1) v).
Definition bb_build (b : bpbuilder) : res (bptree + Z) :=
  if negb (bb_excess b =? 0)%Z then Ok (inr (bb_excess b))
  else let* t := bp_from_bit_vector B (bb_vec b) in Ok (inl t).
End BpTree.
