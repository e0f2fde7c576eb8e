(** * Loop budgets: copies of query functions in which every loop whose length depends on
    the data may run only a given number of times, and the copy returns [Diverge] when the
    loop wants to go on. All other steps of these functions take constant time. A budget
    that never changes the result is a bound on the number of iterations. *)
From Verif Require Import Base BitVecModel RsVecModel EFModel.

(** fast_rs_vec/select.rs 165-186: at most [kb] iterations of the binary search of 168-176 and
    at most [kl] of the linear search of 179-183. *)
Definition search_super_block0_cut (kb kl : nat) (rs : rsvec) (sb rank : N) : res N :=
  let* e := idx (rsel rs) (rank / SELECT_BLOCK_SIZE + 1) in
  let* sb := search_super0_bin kb rs rank sb (fst e) in
  search_super0_lin kl rs rank sb.

(** select.rs 20-41 with the search for the super-block as a parameter. *)
Definition rs_select0_gen (search_super : rsvec -> N -> N -> res N) (rs : rsvec) (rank : N) : res N :=
  if rrank0 rs <=? rank then Ok (rlen rs)
  else
    let* e := idx (rsel rs) (rank / SELECT_BLOCK_SIZE) in
    let sb := fst e in
    let* go :=
      if sb + 1 <? lenN (rsupers rs) then
        let* z := idx (rsupers rs) (sb + 1) in Ok (z <=? rank)
      else Ok false in
    let* sb := if go then search_super rs sb rank else Ok sb in
    let* z := idx (rsupers rs) sb in
    let* rank := sub rank z in
    let* bi := search_block0 rs rank (sb * (SUPER_BLOCK_SIZE / BLOCK_SIZE)) in
    let* z := idx (rblocks rs) bi in
    let* rank := sub rank z in
    search_word_in_block0 rs rank bi.
Definition rs_select0_cut (kb kl : nat) : rsvec -> N -> res N := rs_select0_gen (search_super_block0_cut kb kl).

(** The parameter is the only difference. *)
Lemma rs_select0_gen_same : rs_select0_gen search_super_block0 = rs_select0.
Proof. reflexivity. Qed.

(** fast_rs_vec/select.rs 387-409, in the same way. *)
Definition search_super_block1_cut (kb kl : nat) (rs : rsvec) (sb rank : N) : res N :=
  let* e := idx (rsel rs) (rank / SELECT_BLOCK_SIZE + 1) in
  let* sb := search_super1_bin kb rs rank sb (snd e) in
  search_super1_lin kl rs rank sb.

(** select.rs 195-222 with the search for the super-block as a parameter. *)
Definition rs_select1_gen (search_super : rsvec -> N -> N -> res N) (rs : rsvec) (rank : N) : res N :=
  if rrank1 rs <=? rank then Ok (rlen rs)
  else
    let* e := idx (rsel rs) (rank / SELECT_BLOCK_SIZE) in
    let sb := snd e in
    let* go :=
      if sb + 1 <? lenN (rsupers rs) then
        let* z := idx (rsupers rs) (sb + 1) in
        let* ones := sub ((sb + 1) * SUPER_BLOCK_SIZE) z in
        Ok (ones <=? rank)
      else Ok false in
    let* sb := if go then search_super rs sb rank else Ok sb in
    let* z := idx (rsupers rs) sb in
    let* ones := sub (sb * SUPER_BLOCK_SIZE) z in
    let* rank := sub rank ones in
    let base := sb * (SUPER_BLOCK_SIZE / BLOCK_SIZE) in
    let* bi := search_block1 rs rank base base in
    let* z := idx (rblocks rs) bi in
    let* rel := sub bi base in
    let* ones := sub (rel * BLOCK_SIZE) z in
    let* rank := sub rank ones in
    search_word_in_block1 rs rank bi.
Definition rs_select1_cut (kb kl : nat) : rsvec -> N -> res N := rs_select1_gen (search_super_block1_cut kb kl).

Lemma rs_select1_gen_same : rs_select1_gen search_super_block1 = rs_select1.
Proof. reflexivity. Qed.

(** ** Elias-Fano. The selects on the upper vector are parameters, so that they can have budgets
    too; [kb] limits the binary search, [kk] the loop stepping back over equal elements. The linear
    search in front of the binary search takes at most four steps in any case. *)
Section EF.
Variables sel0 sel1 : rsvec -> N -> res N.
Variables kb kk : nat.

(** elias_fano/mod.rs 323-358 *)
Fixpoint ef_bin_cut (fuel : nat) (index up : bool) (e : ef) (ql qmu : N) (lb ub lc : N) : res (N + (N * N * N)) :=
  let* u1 := sub ub 1 in
  if lb <? u1 then
    match fuel with
    | O => Diverge
    | S fuel =>
        let* d := sub ub lb in
        let middle := lb + N.shiftr d 1 in
        let* mc := ef_low e middle in
        if ql <? mc then ef_bin_cut fuel index up e ql qmu lb middle (if up then lc else mc)
        else if mc =? ql then
          if index then let* c := ef_back kk e ql middle in Ok (inl c)
          else let* v := add64 (N.lor qmu mc) (ef_zero e) in Ok (inl v)
        else ef_bin_cut fuel index up e ql qmu middle ub (if up then mc else lc)
    end
  else Ok (inr (lb, ub, lc)).

(** mod.rs 184-190 *)
Definition ef_get_unchecked_cut (e : ef) (i : N) : res N :=
  let* s := sel1 (ef_upper e) i in
  let* s := sub s i in
  let* upper := sub s 1 in
  let* lower := ef_low e i in
  let* hi := shl64_chk upper (ef_w e) in
  add64 (N.lor hi lower) (ef_zero e).

(** mod.rs 302-389 *)
Definition ef_binary_cut (index up : bool) (e : ef) (sil qu ql qmu cursor lc : N) : res ef_out :=
  let* block_end :=
    if up then
      let* s := sel0 (ef_upper e) (qu + 1) in
      let* s := sub s qu in sub s 2
    else let* s := sel0 (ef_upper e) qu in sub s qu in
  let* cur := dir up sil cursor in
  let* start := (if up then sub cur 1 else Ok (cur + 1)) in
  let '(lb, ub) := if up then (start, block_end) else (block_end, start) in
  let* r := ef_bin_cut kb index up e ql qmu lb ub lc in
  match r with
  | inl v => Ok (Ret v)
  | inr (lb, ub, lc) =>
      let fb := if up then lb else ub in
      let* o :=
        if if up then fb <? block_end else block_end <? fb then
          let* p := dir up fb 1 in
          let* cc := ef_low e p in
          if nye index up cc ql then
            if index then Ok (Some (fb + 1 + 1))
            else let* v := add64 (N.lor qmu cc) (ef_zero e) in Ok (Some v)
          else Ok None
        else Ok None in
      match o with
      | Some v => Ok (Ret v)
      | None =>
          if index then let* c := sub (fb + 1) sil in Ok (Cont c lc)
          else Ok (Cont cursor lc)
      end
  end.

(** mod.rs 266-391 *)
Fixpoint ef_linear_cut (fuel : nat) (index up : bool) (e : ef) (siu sil qu ql qmu cursor lc : N) : res ef_out :=
  let* p := dir up siu (cursor + 1) in
  let* b := rs_get_unchecked (ef_upper e) p in
  if 0 <? b then
    match fuel with
    | O => Diverge
    | S fuel =>
        let* i := dir up sil cursor in
        let* nc := ef_low e i in
        if if up then ql <? nc else nc <? ql then
          if index then Ok (Ret (sil + cursor))
          else let* v := add64 (N.lor qmu lc) (ef_zero e) in Ok (Ret v)
        else if nc =? ql then
          if index then Ok (Ret (sil + cursor))
          else let* v := add64 (N.lor qmu nc) (ef_zero e) in Ok (Ret v)
        else if cursor + 1 =? 4 then ef_binary_cut index up e sil qu ql qmu (cursor + 1) nc
        else ef_linear_cut fuel index up e siu sil qu ql qmu (cursor + 1) nc
    end
  else Ok (Cont cursor lc).

(** mod.rs 218-411 *)
Definition ef_search_cut (index up : bool) (e : ef) (siu sil query qu ql qmu : N) : res N :=
  let* p := dir up siu 1 in
  let* b := rs_get_unchecked (ef_upper e) p in
  let* hit :=
    if 0 <? b then
      let* lc := ef_low e sil in
      if nye index up (N.lor qmu lc) query then
        let* o := ef_linear_cut 4 index up e siu sil qu ql qmu 1 lc in
        match o with
        | Ret v => Ok (Some v)
        | Cont cursor lc =>
            if index then Ok (Some (sil + cursor))
            else let* v := add64 (N.lor qmu lc) (ef_zero e) in Ok (Some v)
        end
      else Ok None
    else Ok None in
  match hit with
  | Some v => Ok v
  | None =>
      if index then Ok sil
      else
        let* i := (if up then sub sil 1 else Ok (sil + 1)) in
        ef_get_unchecked_cut e i
  end.

(** mod.rs 425-455 and 200-207 *)
Definition ef_predecessor_cut (e : ef) (n : N) : res (option N) :=
  if (n <? ef_zero e) || (ef_n e =? 0) then Ok None
  else
    let* v :=
      if ef_max e <? n then let* i := sub (ef_n e) 1 in ef_get_unchecked_cut e i
      else
        let* n := sub n (ef_zero e) in
        let uq := N.shiftr n (ef_w e) in
        let lq := N.land n (lowmask (ef_w e)) in
        let* siu := sel0 (ef_upper e) uq in
        let* sil := sub siu uq in
        let* ru := shl64_chk uq (ef_w e) in
        ef_search_cut false true e siu sil n uq lq ru in
    Ok (Some v).

(** mod.rs 486-516 and 465-472 *)
Definition ef_successor_cut (e : ef) (n : N) : res (option N) :=
  if (ef_max e <? n) || (ef_n e =? 0) then Ok None
  else
    let* v :=
      if n <? ef_zero e then ef_get_unchecked_cut e 0
      else
        let* n := sub n (ef_zero e) in
        let uq := N.shiftr n (ef_w e) in
        let lq := N.land n (lowmask (ef_w e)) in
        let* siu := sel0 (ef_upper e) (uq + 1) in
        let* s := sub siu uq in
        let* sil := sub s 2 in
        let* ru := shl64_chk uq (ef_w e) in
        ef_search_cut false false e siu sil n uq lq ru in
    Ok (Some v).

(** mod.rs 579-602 *)
Definition ef_rank_cut (e : ef) (v : N) : res N :=
  if (ef_max e <? v) || (ef_n e =? 0) then Ok (ef_n e)
  else if v <? ef_zero e then Ok 0
  else
    let* v := sub v (ef_zero e) in
    let upper := N.shiftr v (ef_w e) in
    let lower := N.land v (lowmask (ef_w e)) in
    let* qb := sel0 (ef_upper e) upper in
    let* li := sub qb upper in
    let* hi := shl64_chk upper (ef_w e) in
    ef_search_cut true true e qb li v upper lower hi.
End EF.
