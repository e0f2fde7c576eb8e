(** * Node queries of balanced parenthesis trees in a release build: trees/bp/mod.rs 335-506, 557-733, 772-798.
    [debug_assert!] is dropped and [+] and [-] on [usize] and [i64] wrap; everything else is as in [BpModel]. *)
From Verif Require Import Base Spec BitVecModel RsVecModel RsIterModel GenIterModel BpModel BpReleaseModel.

Section BpTree.
Variables (lk : lookup) (B : N).
(** mod.rs 339-345, 363-376 *)
Definition bp_close_rel (t : bptree) (index : N) : res (option N) :=
  if rlen (bp_vec t) <=? index then Ok None else bp_fwd_search_rel lk B t index (-1)%Z.
Definition bp_enclose_rel (t : bptree) (index : N) : res (option N) :=
  if rlen (bp_vec t) <=? index then Ok None
  else
    let* bit := rs_get_unchecked (bp_vec t) index in
    bp_bwd_search_rel lk B t index (if bit =? 1 then (-1)%Z else (-2)%Z).
(** mod.rs 382-385: [index + 1] wraps. *)
Definition bp_excess_rel (t : bptree) (index : N) : res Z :=
  let* r1 := rs_rank1 (bp_vec t) (wrapping_add index 1) in
  let* r0 := rs_rank0 (bp_vec t) (wrapping_add index 1) in
  Ok (wrap_i64 (as_i64 r1 - as_i64 r0)).
(** mod.rs 557-564 *)
Definition bp_parent_rel (t : bptree) (node : N) : res (option N) := bp_enclose_rel t node.
(** mod.rs 566-579 *)
Definition bp_first_child_rel (t : bptree) (node : N) : res (option N) :=
  let* o := rs_get (bp_vec t) (wrapping_add node 1) in
  Ok (match o with Some b => if b =? 1 then Some (wrapping_add node 1) else None | None => None end).
(** mod.rs 581-591 *)
Definition bp_next_sibling_rel (t : bptree) (node : N) : res (option N) :=
  let* c := bp_close_rel t node in
  match c with
  | None => Ok None
  | Some i =>
      let* o := rs_get (bp_vec t) (wrapping_add i 1) in
      Ok (match o with Some b => if b =? 1 then Some (wrapping_add i 1) else None | None => None end)
  end.
(** mod.rs 593-609 *)
Definition bp_previous_sibling_rel (t : bptree) (node : N) : res (option N) :=
  if node =? 0 then Ok None
  else
    let* o := rs_get (bp_vec t) (usub node 1) in
    match o with
    | None => Ok None
    | Some b => if b =? 0 then bp_open_rel lk B t (usub node 1) else Ok None
    end.
(** mod.rs 611-627 *)
Definition bp_last_child_rel (t : bptree) (node : N) : res (option N) :=
  let* o := rs_get (bp_vec t) (wrapping_add node 1) in
  match o with
  | None => Ok None
  | Some b =>
      if b =? 1 then
        let* c := bp_close_rel t node in
        match c with None => Ok None | Some i => bp_open_rel lk B t (usub i 1) end
      else Ok None
  end.
(** mod.rs 629-635 *)
Definition bp_node_index_rel (t : bptree) (node : N) : res N := rs_rank1 (bp_vec t) node.
(** mod.rs 641-647 *)
Definition bp_is_leaf_rel (t : bptree) (node : N) : res bool :=
  let* o := rs_get (bp_vec t) (wrapping_add node 1) in
  Ok (match o with Some b => b =? 0 | None => false end).
(** mod.rs 649-656 *)
Definition bp_depth_rel (t : bptree) (node : N) : res N :=
  let* e := bp_excess_rel t node in
  Ok ((if (0 <=? e)%Z then Z.to_N e else 0) - 1).
(** mod.rs 668-684 *)
Definition bp_is_ancestor_rel (t : bptree) (a d : N) : res (option bool) :=
  let* c := bp_close_rel t a in
  Ok (match c with None => None | Some c => Some ((a <=? d) && (d <? c)) end).
(** mod.rs 698-700 *)
Definition bp_level_next_rel (t : bptree) (node : N) : res (option N) :=
  let* c := bp_close_rel t node in
  match c with None => Ok None | Some c => bp_fwd_search_rel lk B t c 1%Z end.
(** mod.rs 702-704 *)
Definition bp_level_prev_rel (t : bptree) (node : N) : res (option N) :=
  let* c := bp_bwd_search_rel lk B t node 1%Z in
  match c with None => Ok None | Some c => bp_open_rel lk B t c end.
(** mod.rs 725-733 *)
Definition bp_subtree_size_rel (t : bptree) (node : N) : res (option N) :=
  let* c := bp_close_rel t node in
  match c with
  | None => Ok None
  | Some c =>
      let* r1 := rs_rank1 (bp_vec t) c in
      let* r0 := rs_rank1 (bp_vec t) node in
      Ok (Some (usub r1 r0))
  end.
(** mod.rs 422, 471 *)
Definition bp_open_item_rel (t : bptree) (n : N) : res N :=
  let* o := bp_open_rel lk B t n in match o with Some x => Ok x | None => Panic end.
(** mod.rs 419-423 *)
Definition bp_dfs_post_list_rel (t : bptree) : res (list N) :=
  let* it := sel_new true (bp_vec t) in
  collect (bp_fuel t) (map_next (sel_next true (bp_vec t)) (bp_open_item_rel t)) it.
(** mod.rs 430-444 *)
Definition bp_subtree_list_rel (t : bptree) (node : N) : res (list N) :=
  let rs := bp_vec t in
  let* index := rs_rank1 rs node in
  let* c := bp_close_rel t node in
  let close := match c with Some c => c | None => node end in
  let* r := rs_rank1 rs close in
  let* it := sel_new false rs in
  collect (bp_fuel t) (take_next (skip_next (sel_next false rs) (sel_nth false rs))) ((it, index), usub r index).
(** mod.rs 454-472 *)
Definition bp_subtree_post_list_rel (t : bptree) (node : N) : res (list N) :=
  let rs := bp_vec t in
  let* index := rs_rank0 rs node in
  let* c := bp_close_rel t node in
  let close := match c with Some c => c | None => node end in
  let* r := rs_rank0 rs close in
  let* it := sel_new true rs in
  collect (bp_fuel t)
    (map_next (take_next (skip_next (sel_next true rs) (sel_nth true rs))) (bp_open_item_rel t)) ((it, index), usub (wrapping_add r 1) index).
(** mod.rs 789-798 *)
Definition bp_children_next_rel (forward : bool) (t : bptree) (cur : option N) : res (option N * option N) :=
  match cur with
  | None => Ok (None, None)
  | Some c =>
      let* next := if forward then bp_next_sibling_rel t c else bp_previous_sibling_rel t c in
      Ok (next, Some c)
  end.
(** mod.rs 479-506 and 772-781 *)
Definition bp_children_list_rel (forward : bool) (t : bptree) (node : N) : res (list N) :=
  let* first := if forward then bp_first_child_rel t node else bp_last_child_rel t node in
  collect (bp_fuel t) (bp_children_next_rel forward t) first.
End BpTree.
