(** * Loop budgets (see CostModel.v) for the min-max tree and the balanced parentheses tree. *)
From Verif Require Import Base BitVecModel RsVecModel BpModel CostModel.

(** A [for] loop with at most [k] iterations. *)
Fixpoint forM_ret_cut {A S R} (k : nat) (l : list A) (s : S) (f : S -> A -> res (S + R)) : res (S + R) :=
  match l with
  | [] => Ok (inl s)
  | x :: r =>
      match k with
      | O => Diverge
      | Datatypes.S k =>
          let* s' := f s x in
          match s' with
          | inl s'' => forM_ret_cut k r s'' f
          | inr v => Ok (inr v)
          end
      end
  end.

(** mmt.rs 252-295 with at most [fuel] calls, and at most [kd] calls of the downward search. *)
Fixpoint mmt_fwd_up_cut (kd fuel : nat) (nodes : list enode) (node : N) (rel : Z) : res (option (N * Z)) :=
  match fuel with
  | O => Diverge
  | S fuel =>
      let* _ := assert (node <? lenN nodes) in
      if negb (mmt_is_left_child node) then
        match mmt_parent nodes node with
        | None => Panic
        | Some p => if p =? 0 then Ok None else mmt_fwd_up_cut kd fuel nodes p rel
        end
      else
        match mmt_right_sibling nodes node with
        | None => Ok None
        | Some s =>
            let* ns := idx nodes s in
            if ((nmin ns <=? rel) && (rel <=? nmax ns))%Z then mmt_fwd_down kd nodes s rel
            else
              match mmt_parent nodes node with
              | None => Panic
              | Some p =>
                  if p =? 0 then Ok None
                  else let* rel := i64 (rel - ntotal ns) in mmt_fwd_up_cut kd fuel nodes p rel
              end
        end
  end.

(** mmt.rs 216-226 *)
Definition mmt_fwd_search_cut (ku kd : nat) (nodes : list enode) (begin : N) (rel : Z) : res (option (N * Z)) :=
  let* f := mmt_first_leaf nodes in
  if lenN nodes <=? begin + f then Ok None
  else
    let* _ := assert (negb (begin + f =? 0)) in
    let* r := mmt_fwd_up_cut kd ku nodes (begin + f) rel in
    match r with
    | None => Ok None
    | Some (node, rel) => let* b := sub node f in Ok (Some (b, rel))
    end.

(** mmt.rs 342-387, in the same way. *)
Fixpoint mmt_bwd_up_cut (kd fuel : nat) (nodes : list enode) (node : N) (rel : Z) : res (option (N * Z)) :=
  match fuel with
  | O => Diverge
  | S fuel =>
      let* _ := assert (node <? lenN nodes) in
      if mmt_is_left_child node then
        match mmt_parent nodes node with
        | None => Panic
        | Some p => if p =? 0 then Ok None else mmt_bwd_up_cut kd fuel nodes p rel
        end
      else
        match mmt_left_sibling node with
        | None => Ok None
        | Some s =>
            let* ns := idx nodes s in
            let* t := mmt_bwd_test ns rel in
            if t then mmt_bwd_down kd nodes s rel
            else
              match mmt_parent nodes node with
              | None => Panic
              | Some p =>
                  if p =? 0 then Ok None
                  else let* rel := i64 (rel + ntotal ns) in mmt_bwd_up_cut kd fuel nodes p rel
              end
        end
  end.

(** mmt.rs 238-247 *)
Definition mmt_bwd_search_cut (ku kd : nat) (nodes : list enode) (begin : N) (rel : Z) : res (option (N * Z)) :=
  let* f := mmt_first_leaf nodes in
  if lenN nodes <=? begin + f then Ok None
  else
    let* _ := assert (negb (begin + f =? 0)) in
    let* r := mmt_bwd_up_cut kd ku nodes (begin + f) rel in
    match r with
    | None => Ok None
    | Some (node, rel) => let* b := sub node f in Ok (Some (b, rel))
    end.

(** The searches of trees/bp/mod.rs: [ks] limits each loop over single bits, [kl] each loop over
    table lookups, [ku] and [kd] the upward and downward search in the min-max tree. *)
Section Search.
Variable lk : lookup.
Variable B : N.
Variables ks kl ku kd : nat.

(** mod.rs 194-246 *)
Definition bp_fwd_search_block_cut (t : bptree) (start block : N) (rel : Z) : res (Z + N) :=
  let rs := bp_vec t in
  let boundary := N.min ((block + 1) * B) (rlen rs) in
  let lb := N.min (div_ceil (start + 1) (lk_size lk) * lk_size lk) boundary in
  let* r := forM_ret_cut ks (range (start + 1) lb) rel (scan_fwd rs) in
  match r with
  | inr i => Ok (inr i)
  | inl rel =>
      let ub := N.max lb (boundary / lk_size lk * lk_size lk) in
      let* r := forM_ret_cut kl (steps lb ub (lk_size lk)) rel (look_step (lk_size lk) (lk_fwd lk) rs) in
      match r with
      | inr i => Ok (inr i)
      | inl rel => forM_ret_cut ks (range ub boundary) rel (scan_fwd rs)
      end
  end.

(** mod.rs 163-185 *)
Definition bp_fwd_search_cut (t : bptree) (index : N) (rel : Z) : res (option N) :=
  let* last := sub (rlen (bp_vec t)) 1 in
  if last <=? index then Ok None
  else
    let block := (index + 1) / B in
    let* r := bp_fwd_search_block_cut t index block rel in
    match r with
    | inr i => Ok (Some i)
    | inl rel =>
        let* o := mmt_fwd_search_cut ku kd (bp_mmt t) block rel in
        match o with
        | None => Ok None
        | Some (block, rel) =>
            let* start := sub (block * B) 1 in
            let* r := bp_fwd_search_block_cut t start block rel in
            Ok (match r with inr i => Some i | inl _ => None end)
        end
    end.

(** mod.rs 295-333 *)
Definition bp_bwd_search_block_cut (t : bptree) (start block : N) (rel : Z) : res (Z + N) :=
  let rs := bp_vec t in
  let boundary := N.min (block * B) (rlen rs) in
  let* s1 := sub start 1 in
  let lb := N.max (s1 / lk_size lk * lk_size lk) boundary in
  let* r := forM_ret_cut ks (rev (range lb start)) rel (scan_bwd rs) in
  match r with
  | inr i => Ok (inr i)
  | inl rel => forM_ret_cut kl (rev (steps boundary lb (lk_size lk))) rel (look_step (lk_size lk) (lk_bwd lk) rs)
  end.

(** mod.rs 256-286 *)
Definition bp_bwd_search_cut (t : bptree) (index : N) (rel : Z) : res (option N) :=
  if rlen (bp_vec t) <=? index then Ok None
  else if index =? 0 then Ok None
  else
    let block := (index - 1) / B in
    let* r := bp_bwd_search_block_cut t index block rel in
    match r with
    | inr i => Ok (Some i)
    | inl rel =>
        let* o := mmt_bwd_search_cut ku kd (bp_mmt t) block rel in
        match o with
        | None => Ok None
        | Some (block, rel) =>
            let* r := bp_bwd_search_block_cut t ((block + 1) * B) block rel in
            Ok (match r with inr i => Some i | inl _ => None end)
        end
    end.
End Search.

(** The operations of trees/bp/mod.rs that search, with the two searches as parameters. They
    have no other loops. *)
Section Ops.
Variables fwd bwd : bptree -> N -> Z -> res (option N).

(** mod.rs 339-345, 351-357, 363-376 *)
Definition gen_close (t : bptree) (index : N) : res (option N) :=
  if rlen (bp_vec t) <=? index then Ok None else fwd t index (-1)%Z.
Definition gen_open (t : bptree) (index : N) : res (option N) :=
  if rlen (bp_vec t) <=? index then Ok None else bwd t index (-1)%Z.
Definition gen_enclose (t : bptree) (index : N) : res (option N) :=
  if rlen (bp_vec t) <=? index then Ok None
  else
    let* bit := rs_get_unchecked (bp_vec t) index in
    bwd t index (if bit =? 1 then (-1)%Z else (-2)%Z).
(** mod.rs 557-564 *)
Definition gen_parent (t : bptree) (node : N) : res (option N) :=
  let* _ := bp_assert_node t node in gen_enclose t node.
(** mod.rs 581-591 *)
Definition gen_next_sibling (t : bptree) (node : N) : res (option N) :=
  let* _ := bp_assert_node t node in
  let* c := gen_close t node in
  match c with
  | None => Ok None
  | Some i =>
      let* o := rs_get (bp_vec t) (i + 1) in
      Ok (match o with Some b => if b =? 1 then Some (i + 1) else None | None => None end)
  end.
(** mod.rs 593-609 *)
Definition gen_previous_sibling (t : bptree) (node : N) : res (option N) :=
  let* _ := bp_assert_node t node in
  if node =? 0 then Ok None
  else
    let* o := rs_get (bp_vec t) (node - 1) in
    match o with
    | None => Ok None
    | Some b => if b =? 0 then gen_open t (node - 1) else Ok None
    end.
(** mod.rs 611-627 *)
Definition gen_last_child (t : bptree) (node : N) : res (option N) :=
  let* _ := bp_assert_node t node in
  let* o := rs_get (bp_vec t) (node + 1) in
  match o with
  | None => Ok None
  | Some b =>
      if b =? 1 then
        let* c := gen_close t node in
        match c with
        | None => Ok None
        | Some i => let* i1 := sub i 1 in gen_open t i1
        end
      else Ok None
  end.
(** mod.rs 668-684 *)
Definition gen_is_ancestor (t : bptree) (a d : N) : res (option bool) :=
  let* _ := bp_assert_node t a in
  let* _ := bp_assert_node t d in
  let* c := gen_close t a in
  Ok (match c with None => None | Some c => Some ((a <=? d) && (d <? c)) end).
(** mod.rs 688-696 *)
Definition gen_level_ancestor (t : bptree) (node level : N) : res (option N) :=
  if level =? 0 then Ok (Some node)
  else let* d := i64 (- as_i64 level) in bwd t node d.
(** mod.rs 698-700 *)
Definition gen_level_next (t : bptree) (node : N) : res (option N) :=
  let* c := gen_close t node in
  match c with None => Ok None | Some c => fwd t c 1%Z end.
(** mod.rs 702-704 *)
Definition gen_level_prev (t : bptree) (node : N) : res (option N) :=
  let* c := bwd t node 1%Z in
  match c with None => Ok None | Some c => gen_open t c end.
(** mod.rs 706-715 *)
Definition gen_level_leftmost (t : bptree) (level : N) : res (option N) :=
  if level =? 0 then Ok (Some 0) else fwd t 0 (as_i64 level).
(** mod.rs 717-721 *)
Definition gen_level_rightmost (t : bptree) (level : N) : res (option N) :=
  let* s := bp_size t in
  let* last := sub (s * 2) 1 in
  let* c := bwd t last (as_i64 level) in
  match c with None => Ok None | Some c => gen_open t c end.
(** mod.rs 725-733 *)
Definition gen_subtree_size (t : bptree) (node : N) : res (option N) :=
  let* _ := bp_assert_node t node in
  let* c := gen_close t node in
  match c with
  | None => Ok None
  | Some c =>
      let* r1 := rs_rank1 (bp_vec t) c in
      let* r0 := rs_rank1 (bp_vec t) node in
      let* d := sub r1 r0 in
      Ok (Some d)
  end.
End Ops.

(** mod.rs 637-639 *)
Definition bp_node_handle_cut (kb kl : nat) (t : bptree) (index : N) : res N := rs_select1_cut kb kl (bp_vec t) index.

(** The parameters are the only difference. *)
Lemma gen_same lk B :
  gen_close (bp_fwd_search lk B) = bp_close lk B /\ gen_open (bp_bwd_search lk B) = bp_open lk B /\
  gen_enclose (bp_bwd_search lk B) = bp_enclose lk B /\ gen_parent (bp_bwd_search lk B) = bp_parent lk B /\
  gen_next_sibling (bp_fwd_search lk B) = bp_next_sibling lk B /\
  gen_previous_sibling (bp_bwd_search lk B) = bp_previous_sibling lk B /\
  gen_last_child (bp_fwd_search lk B) (bp_bwd_search lk B) = bp_last_child lk B /\
  gen_is_ancestor (bp_fwd_search lk B) = bp_is_ancestor lk B /\
  gen_level_ancestor (bp_bwd_search lk B) = bp_level_ancestor lk B /\
  gen_level_next (bp_fwd_search lk B) = bp_level_next lk B /\
  gen_level_prev (bp_bwd_search lk B) = bp_level_prev lk B /\
  gen_level_leftmost (bp_fwd_search lk B) = bp_level_leftmost lk B /\
  gen_level_rightmost (bp_bwd_search lk B) = bp_level_rightmost lk B /\
  gen_subtree_size (bp_fwd_search lk B) = bp_subtree_size lk B.
Proof. repeat apply conj; reflexivity. Qed.
