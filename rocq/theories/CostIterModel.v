(** * Loop budgets of the select iterators, in the style of [CostModel]. *)
From Verif Require Import Base BitVecModel RsVecModel RsIterModel CostModel.

(** iter.rs 109-155 with the search for the super-block as a parameter; nothing else in it has a loop
    whose length depends on the data. *)
Definition select_next_0_gen (search_super search : rsvec -> N -> N -> res N) (rs : rsvec) (it : sel_iter) : res (sel_iter * option N) :=
  let rank := it_rank it in
  if (rrank0 rs <=? rank) || match it_back it with None => true | Some b => b <? rank end
  then Ok (it, None)
  else
    let* e := idx (rsel rs) (rank / SELECT_BLOCK_SIZE) in
    let* cached :=
      if it_sb it + 1 <? lenN (rsupers rs) then
        let* z := idx (rsupers rs) (it_sb it + 1) in Ok (rank <? z)
      else Ok false in
    let* '(sb, rank, bi) :=
      if (cached : bool) then
        let* z := idx (rsupers rs) (it_sb it) in
        let* rank := sub rank z in
        let* hit :=
          if it_b it mod (SUPER_BLOCK_SIZE / BLOCK_SIZE) =? 15 then Ok true
          else if it_b it + 1 <? lenN (rblocks rs) then
            let* z := idx (rblocks rs) (it_b it + 1) in Ok (rank <? z)
          else Ok false in
        if (hit : bool) then
          let* z := idx (rblocks rs) (it_b it) in
          let* rank := sub rank z in
          Ok (it_sb it, rank, it_b it)
        else Ok (it_sb it, rank, 0)
      else
        let* sb := search_super rs (fst e) rank in
        let* z := idx (rsupers rs) sb in
        let* rank := sub rank z in
        Ok (sb, rank, 0) in
    let* '(b, rank, bi) :=
      if bi =? 0 then
        let* bi := search rs rank (sb * (SUPER_BLOCK_SIZE / BLOCK_SIZE)) in
        let* z := idx (rblocks rs) bi in
        let* rank := sub rank z in
        Ok (bi, rank, bi)
      else Ok (it_b it, rank, bi) in
    let* p := search_word_in_block0 rs rank bi in
    Ok (mkit (it_rank it + 1) (it_back it) sb (it_sbb it) b (it_bb it), Some p).
Lemma select_next_0_gen_same : select_next_0_gen search_super_block0 search_block0 = select_next_0.
Proof. reflexivity. Qed.
Definition select_next_0_cut (kb kl : nat) : rsvec -> sel_iter -> res (sel_iter * option N) :=
  select_next_0_gen (search_super_block0_cut kb kl) search_block0.

(** iter.rs 204-264 *)
Definition select_next_1_gen (search_super : rsvec -> N -> N -> res N) (search : rsvec -> N -> N -> N -> res N) (rs : rsvec) (it : sel_iter) : res (sel_iter * option N) :=
  let rank := it_rank it in
  if (rrank1 rs <=? rank) || match it_back it with None => true | Some b => b <? rank end
  then Ok (it, None)
  else
    let* e := idx (rsel rs) (rank / SELECT_BLOCK_SIZE) in
    let* cached :=
      if it_sb it + 1 <? lenN (rsupers rs) then
        let* z := idx (rsupers rs) (it_sb it + 1) in
        let* o := sub ((it_sb it + 1) * SUPER_BLOCK_SIZE) z in
        Ok (rank <? o)
      else Ok false in
    let* '(sb, rank, bi) :=
      if (cached : bool) then
        let base := it_sb it * (SUPER_BLOCK_SIZE / BLOCK_SIZE) in
        let* z := idx (rsupers rs) (it_sb it) in
        let* o := sub (it_sb it * SUPER_BLOCK_SIZE) z in
        let* rank := sub rank o in
        let* hit :=
          if it_b it mod (SUPER_BLOCK_SIZE / BLOCK_SIZE) =? 15 then Ok true
          else if it_b it + 1 <? lenN (rblocks rs) then
            let* rel := sub (it_b it + 1) base in
            let* z := idx (rblocks rs) (it_b it + 1) in
            let* o := sub (rel * BLOCK_SIZE) z in
            Ok (rank <? o)
          else Ok false in
        if (hit : bool) then
          let* rel := sub (it_b it) base in
          let* z := idx (rblocks rs) (it_b it) in
          let* o := sub (rel * BLOCK_SIZE) z in
          let* rank := sub rank o in
          Ok (it_sb it, rank, it_b it)
        else Ok (it_sb it, rank, 0)
      else
        let* sb := search_super rs (snd e) rank in
        let* z := idx (rsupers rs) sb in
        let* o := sub (sb * SUPER_BLOCK_SIZE) z in
        let* rank := sub rank o in
        Ok (sb, rank, 0) in
    let* '(b, rank, bi) :=
      if bi =? 0 then
        let base := sb * (SUPER_BLOCK_SIZE / BLOCK_SIZE) in
        let* bi := search rs rank base base in
        let* rel := sub bi base in
        let* z := idx (rblocks rs) bi in
        let* o := sub (rel * BLOCK_SIZE) z in
        let* rank := sub rank o in
        Ok (bi, rank, bi)
      else Ok (it_b it, rank, bi) in
    let* p := search_word_in_block1 rs rank bi in
    Ok (mkit (it_rank it + 1) (it_back it) sb (it_sbb it) b (it_bb it), Some p).
Lemma select_next_1_gen_same : select_next_1_gen search_super_block1 search_block1 = select_next_1.
Proof. reflexivity. Qed.
Definition select_next_1_cut (kb kl : nat) : rsvec -> sel_iter -> res (sel_iter * option N) :=
  select_next_1_gen (search_super_block1_cut kb kl) search_block1.

(** The state of the iterator after [n] calls of [next]. *)
Fixpoint after_next (zero : bool) (rs : rsvec) (n : nat) (it : sel_iter) : res sel_iter :=
  match n with
  | O => Ok it
  | S n => let* '(it, _) := sel_next zero rs it in after_next zero rs n it
  end.
Definition fresh_after (zero : bool) (rs : rsvec) (n : nat) : res sel_iter :=
  let* it := sel_new zero rs in after_next zero rs n it.

(** Calling [next] on an iterator over the one-bits once for each budget in [ks], or until it is
    exhausted, collecting what it yields. *)
Fixpoint iter1_cut (kb : nat) (ks : list nat) (rs : rsvec) (it : sel_iter) : res (list N) :=
  match ks with
  | [] => Ok []
  | k :: ks =>
      let* '(it, o) := select_next_1_cut kb k rs it in
      match o with
      | None => Ok []
      | Some p => let* l := iter1_cut kb ks rs it in Ok (p :: l)
      end
  end.
