(** * The searches of src/trees in a release build.

    Differences from BpModel.v: [i64] and [usize] arithmetic wraps, and [debug_assert!] is absent.
    Positions and node numbers are bounded by the length of the vector, so only the caller's relative
    excess, the caller's level, and [len - 1] of an empty vector can wrap. *)
From Verif Require Import Base Spec BitVecModel RsVecModel RsIterModel BpModel BpLookup.

(** The value of [z] after wrapping in [i64]. *)
Definition wrap_i64 (z : Z) : Z := ((z + 9223372036854775808) mod 18446744073709551616 - 9223372036854775808)%Z.

(** [a - b] on [usize], for [a] and [b] in range. *)
Definition usub (a b : N) : N := if b <=? a then a - b else a + 2 ^ 64 - b.

(** ** trees/bp/lookup_query.rs *)
(** lookup_query.rs 142-145: the cast to [usize] and the shift wrap. *)
Definition answer_query_rel (entry : N) (rel : Z) : N :=
  N.land (N.shiftr entry ((10 + Z.to_N ((wrap_i64 (rel + 8)) mod 18446744073709551616) * 3) mod 64)) 7.
(** lookup_query.rs 200-215 *)
Definition lq_process_fwd_rel (block : N) (rel : Z) : res (Z + N) :=
  let* tab := PAREN_BLOCK_LOOKUP_FWD in
  let* e := idx tab block in
  if ((rel <=? get_maximum_excess e) && (get_minimum_excess e <=? rel))%Z then Ok (inr (answer_query_rel e rel))
  else Ok (inl (wrap_i64 (rel - lookup_total_excess 8 block))).
(** lookup_query.rs 218-235 *)
Definition lq_process_bwd_rel (block : N) (rel : Z) : res (Z + N) :=
  let sum := wrap_i64 (rel + lookup_total_excess 8 block) in
  let* tab := PAREN_BLOCK_LOOKUP_FWD in
  let* e := idx tab block in
  if ((sum =? 0) || ((get_minimum_excess e <=? sum) && (sum <=? get_maximum_excess e)))%Z then
    let* tab' := PAREN_BLOCK_LOOKUP_BWD in
    let* e' := idx tab' block in
    Ok (inr (answer_query_rel e' rel))
  else Ok (inl sum).
Definition lookup8_rel : lookup := mklookup 8 lq_process_fwd_rel lq_process_bwd_rel.

(** ** trees/bp/lookup.rs 147-168 and 171-194; width and field width as in BpLookup.v. *)
Section Lookup.
Variables w m : N.
(** lookup.rs 154-161 and 180-187: the two loops. *)
Definition lt_scan_fwd_rel (block : N) (rel : Z) (i : N) : res (Z + N) :=
  let rel := wrap_i64 (rel - (if N.testbit block i then 1 else -1)) in
  Ok (if (rel =? 0)%Z then inr i else inl rel).
Definition lt_scan_bwd_rel (block : N) (rel : Z) (i : N) : res (Z + N) :=
  let rel := wrap_i64 (rel + (if N.testbit block i then 1 else -1)) in
  Ok (if (rel =? 0)%Z then inr i else inl rel).
(** lookup.rs 147-168 *)
Definition lt_process_fwd_rel (block : N) (rel : Z) : res (Z + N) :=
  let* tab := lt_table w m in
  let* e := idx tab block in
  if ((rel <=? lt_maximum w m e) && (lt_minimum w m e <=? rel))%Z then
    let* r := forM_ret (range 0 w) rel (lt_scan_fwd_rel block) in
    match r with inr i => Ok (inr i) | inl _ => Panic end
  else Ok (inl (wrap_i64 (rel - lookup_total_excess w block))).
(** lookup.rs 171-194 *)
Definition lt_process_bwd_rel (block : N) (rel : Z) : res (Z + N) :=
  let sum := wrap_i64 (rel + lookup_total_excess w block) in
  let* tab := lt_table w m in
  let* e := idx tab block in
  if ((sum =? 0) || ((lt_minimum w m e <=? sum) && (sum <=? lt_maximum w m e)))%Z then
    let* r := forM_ret (rev (range 0 w)) rel (lt_scan_bwd_rel block) in
    match r with inr i => Ok (inr i) | inl _ => Panic end
  else Ok (inl sum).
End Lookup.
Definition lookup16_rel : lookup := mklookup 16 (lt_process_fwd_rel 16 6) (lt_process_bwd_rel 16 6).

(** ** trees/mmt.rs *)
(** mmt.rs 191-197, 202-204: on an empty tree the first leaf is 0. *)
Definition mmt_first_leaf_rel (nodes : list enode) : res N :=
  if lenN nodes =? 2 then Ok 1 else sub (next_pow2 (div_ceil (lenN nodes) 2)) 1.
Definition mmt_is_leaf_rel (nodes : list enode) (i : N) : res bool :=
  let* f := mmt_first_leaf_rel nodes in Ok (f <=? i).
(** mmt.rs 300-337 *)
Fixpoint mmt_fwd_down_rel (fuel : nat) (nodes : list enode) (node : N) (rel : Z) : res (option (N * Z)) :=
  match fuel with
  | O => Diverge
  | S fuel =>
      let* leaf := mmt_is_leaf_rel nodes node in
      if leaf then Ok (if node =? 0 then None else Some (node, rel))
      else
        match mmt_left_child nodes node with
        | None => Panic
        | Some l =>
            let* nl := idx nodes l in
            if ((nmin nl <=? rel) && (rel <=? nmax nl))%Z then mmt_fwd_down_rel fuel nodes l rel
            else
              match mmt_right_child nodes node with
              | None => Panic
              | Some r =>
                  let rel := wrap_i64 (rel - ntotal nl) in
                  let* nr := idx nodes r in
                  if ((nmin nr <=? rel) && (rel <=? nmax nr))%Z then mmt_fwd_down_rel fuel nodes r rel else Panic
              end
        end
  end.
(** mmt.rs 252-295 *)
Fixpoint mmt_fwd_up_rel (fuel : nat) (nodes : list enode) (node : N) (rel : Z) : res (option (N * Z)) :=
  match fuel with
  | O => Diverge
  | S fuel =>
      if negb (mmt_is_left_child node) then
        match mmt_parent nodes node with
        | None => Panic
        | Some p => if p =? 0 then Ok None else mmt_fwd_up_rel fuel nodes p rel
        end
      else
        match mmt_right_sibling nodes node with
        | None => Ok None
        | Some s =>
            let* ns := idx nodes s in
            if ((nmin ns <=? rel) && (rel <=? nmax ns))%Z then mmt_fwd_down_rel (length nodes) nodes s rel
            else
              match mmt_parent nodes node with
              | None => Panic
              | Some p =>
                  if p =? 0 then Ok None
                  else mmt_fwd_up_rel fuel nodes p (wrap_i64 (rel - ntotal ns))
              end
        end
  end.
(** mmt.rs 216-226 *)
Definition mmt_fwd_search_rel (nodes : list enode) (begin : N) (rel : Z) : res (option (N * Z)) :=
  let* f := mmt_first_leaf_rel nodes in
  if lenN nodes <=? begin + f then Ok None
  else
    let* _ := assert (negb (begin + f =? 0)) in
    let* r := mmt_fwd_up_rel (length nodes) nodes (begin + f) rel in
    match r with
    | None => Ok None
    | Some (node, rel) => let* b := sub node f in Ok (Some (b, rel))
    end.
(** mmt.rs 363-367, 407-411, 418-422 *)
Definition mmt_bwd_test_rel (n : enode) (rel : Z) : bool :=
  let sum := wrap_i64 (rel + ntotal n) in ((sum =? 0) || ((nmin n <=? sum) && (sum <=? nmax n)))%Z.
(** mmt.rs 392-435 *)
Fixpoint mmt_bwd_down_rel (fuel : nat) (nodes : list enode) (node : N) (rel : Z) : res (option (N * Z)) :=
  match fuel with
  | O => Diverge
  | S fuel =>
      let* leaf := mmt_is_leaf_rel nodes node in
      if leaf then Ok (if node =? 0 then None else Some (node, rel))
      else
        match mmt_right_child nodes node with
        | None => Panic
        | Some r =>
            let* nr := idx nodes r in
            if mmt_bwd_test_rel nr rel then mmt_bwd_down_rel fuel nodes r rel
            else
              match mmt_left_child nodes node with
              | None => Panic
              | Some l =>
                  let rel := wrap_i64 (rel + ntotal nr) in
                  let* nl := idx nodes l in
                  if mmt_bwd_test_rel nl rel then mmt_bwd_down_rel fuel nodes l rel else Panic
              end
        end
  end.
(** mmt.rs 342-387 *)
Fixpoint mmt_bwd_up_rel (fuel : nat) (nodes : list enode) (node : N) (rel : Z) : res (option (N * Z)) :=
  match fuel with
  | O => Diverge
  | S fuel =>
      if mmt_is_left_child node then
        match mmt_parent nodes node with
        | None => Panic
        | Some p => if p =? 0 then Ok None else mmt_bwd_up_rel fuel nodes p rel
        end
      else
        match mmt_left_sibling node with
        | None => Ok None
        | Some s =>
            let* ns := idx nodes s in
            if mmt_bwd_test_rel ns rel then mmt_bwd_down_rel (length nodes) nodes s rel
            else
              match mmt_parent nodes node with
              | None => Panic
              | Some p =>
                  if p =? 0 then Ok None
                  else mmt_bwd_up_rel fuel nodes p (wrap_i64 (rel + ntotal ns))
              end
        end
  end.
(** mmt.rs 238-247 *)
Definition mmt_bwd_search_rel (nodes : list enode) (begin : N) (rel : Z) : res (option (N * Z)) :=
  let* f := mmt_first_leaf_rel nodes in
  if lenN nodes <=? begin + f then Ok None
  else
    let* _ := assert (negb (begin + f =? 0)) in
    let* r := mmt_bwd_up_rel (length nodes) nodes (begin + f) rel in
    match r with
    | None => Ok None
    | Some (node, rel) => let* b := sub node f in Ok (Some (b, rel))
    end.

(** ** trees/bp/mod.rs *)
(** mod.rs 207-214 and 236-243, 308-315 *)
Definition scan_fwd_rel (rs : rsvec) (rel : Z) (i : N) : res (Z + N) :=
  let* bit := rs_get_unchecked rs i in
  let rel := wrap_i64 (rel - (if bit =? 1 then 1 else -1)) in
  Ok (if (rel =? 0)%Z then inr i else inl rel).
Definition scan_bwd_rel (rs : rsvec) (rel : Z) (i : N) : res (Z + N) :=
  let* bit := rs_get_unchecked rs i in
  let rel := wrap_i64 (rel + (if bit =? 1 then 1 else -1)) in
  Ok (if (rel =? 0)%Z then inr i else inl rel).

Section BpTree.
(** One of [lookup8_rel] and [lookup16_rel]. *)
Variable lk : lookup.
Variable B : N.

(** mod.rs 194-246. On an empty vector [boundary] is 0 whether or not the product wraps. *)
Definition bp_fwd_search_block_rel (t : bptree) (start block : N) (rel : Z) : res (Z + N) :=
  let rs := bp_vec t in
  let boundary := N.min ((block + 1) * B) (rlen rs) in
  let lb := N.min (div_ceil (start + 1) (lk_size lk) * lk_size lk) boundary in
  let* r := forM_ret (range (start + 1) lb) rel (scan_fwd_rel rs) in
  match r with
  | inr i => Ok (inr i)
  | inl rel =>
      let ub := N.max lb (boundary / lk_size lk * lk_size lk) in
      let* r := forM_ret (steps lb ub (lk_size lk)) rel (look_step (lk_size lk) (lk_fwd lk) rs) in
      match r with
      | inr i => Ok (inr i)
      | inl rel => forM_ret (range ub boundary) rel (scan_fwd_rel rs)
      end
  end.
(** mod.rs 163-185 *)
Definition bp_fwd_search_rel (t : bptree) (index : N) (rel : Z) : res (option N) :=
  if usub (rlen (bp_vec t)) 1 <=? index then Ok None
  else
    let block := (index + 1) / B in
    let* r := bp_fwd_search_block_rel t index block rel in
    match r with
    | inr i => Ok (Some i)
    | inl rel =>
        let* o := mmt_fwd_search_rel (bp_mmt t) block rel in
        match o with
        | None => Ok None
        | Some (block, rel) =>
            let start := usub (block * B) 1 in
            let* r := bp_fwd_search_block_rel t start block rel in
            Ok (match r with inr i => Some i | inl _ => None end)
        end
    end.
(** mod.rs 295-333 *)
Definition bp_bwd_search_block_rel (t : bptree) (start block : N) (rel : Z) : res (Z + N) :=
  let rs := bp_vec t in
  let boundary := N.min (block * B) (rlen rs) in
  let lb := N.max (usub start 1 / lk_size lk * lk_size lk) boundary in
  let* r := forM_ret (rev (range lb start)) rel (scan_bwd_rel rs) in
  match r with
  | inr i => Ok (inr i)
  | inl rel => forM_ret (rev (steps boundary lb (lk_size lk))) rel (look_step (lk_size lk) (lk_bwd lk) rs)
  end.
(** mod.rs 256-286 *)
Definition bp_bwd_search_rel (t : bptree) (index : N) (rel : Z) : res (option N) :=
  if rlen (bp_vec t) <=? index then Ok None
  else if index =? 0 then Ok None
  else
    let block := (index - 1) / B in
    let* r := bp_bwd_search_block_rel t index block rel in
    match r with
    | inr i => Ok (Some i)
    | inl rel =>
        let* o := mmt_bwd_search_rel (bp_mmt t) block rel in
        match o with
        | None => Ok None
        | Some (block, rel) =>
            let* r := bp_bwd_search_block_rel t ((block + 1) * B) block rel in
            Ok (match r with inr i => Some i | inl _ => None end)
        end
    end.

(** mod.rs 351-357 *)
Definition bp_open_rel (t : bptree) (index : N) : res (option N) :=
  if rlen (bp_vec t) <=? index then Ok None else bp_bwd_search_rel t index (-1)%Z.
(** mod.rs 688-696 *)
Definition bp_level_ancestor_rel (t : bptree) (node level : N) : res (option N) :=
  if level =? 0 then Ok (Some node) else bp_bwd_search_rel t node (wrap_i64 (- as_i64 level)).
(** mod.rs 706-715 *)
Definition bp_level_leftmost_rel (t : bptree) (level : N) : res (option N) :=
  if level =? 0 then Ok (Some 0) else bp_fwd_search_rel t 0 (as_i64 level).
(** mod.rs 717-721 *)
Definition bp_level_rightmost_rel (t : bptree) (level : N) : res (option N) :=
  let* s := bp_size t in
  let* c := bp_bwd_search_rel t (usub (s * 2) 1) (as_i64 level) in
  match c with None => Ok None | Some c => bp_open_rel t c end.
End BpTree.
