(** * Loop budgets of the backward select iterator over the one-bits, in the style of [CostModel]. *)
From Verif Require Import Base BitVecModel RsVecModel RsIterModel CostModel.

(** iter.rs 268-324 with the search for the super-block as a parameter *)
Definition select_next_1_back_gen (search_super : rsvec -> N -> N -> res N) (search : rsvec -> N -> N -> N -> res N) (rs : rsvec) (it : sel_iter) : res (sel_iter * option N) :=
  match it_back it with
  | None => Ok (it, None)
  | Some rank0 =>
  let rank := rank0 in
  if rank <? it_rank it then Ok (it, None)
  else
    let* e := idx (rsel rs) (rank / SELECT_BLOCK_SIZE) in
    let* z := idx (rsupers rs) (it_sbb it) in
    let* o := sub (it_sbb it * SUPER_BLOCK_SIZE) z in
    let* '(sb, rank, bi) :=
      if o <? rank then
        let base := it_sbb it * (SUPER_BLOCK_SIZE / BLOCK_SIZE) in
        let* rank := sub rank o in
        let* rel := sub (it_bb it) base in
        let* z := idx (rblocks rs) (it_bb it) in
        let* o := sub (rel * BLOCK_SIZE) z in
        if o <=? rank then
          let* rank := sub rank o in
          Ok (it_sbb it, rank, it_bb it)
        else Ok (it_sbb it, rank, 0)
      else
        let* sb := search_super rs (snd e) rank in
        let* z := idx (rsupers rs) sb in
        let* o := sub (sb * SUPER_BLOCK_SIZE) z in
        let* rank := sub rank o in
        Ok (sb, rank, 0) in
    let* '(b, rank, bi) :=
      if bi =? 0 then
        let base := sb * (SUPER_BLOCK_SIZE / BLOCK_SIZE) in
        let* bi := search rs rank base base in
        let* rel := sub bi base in
        let* z := idx (rblocks rs) bi in
        let* o := sub (rel * BLOCK_SIZE) z in
        let* rank := sub rank o in
        Ok (bi, rank, bi)
      else Ok (it_bb it, rank, bi) in
    let* p := search_word_in_block1 rs rank bi in
    Ok (mkit (it_rank it) (if 0 <? rank0 then Some (rank0 - 1) else None)
             (it_sb it) sb (it_b it) b, Some p)
  end.
Lemma select_next_1_back_gen_same : select_next_1_back_gen search_super_block1 search_block1 = select_next_1_back.
Proof. reflexivity. Qed.
Definition select_next_1_back_cut (kb kl : nat) : rsvec -> sel_iter -> res (sel_iter * option N) :=
  select_next_1_back_gen (search_super_block1_cut kb kl) search_block1.

(** A new iterator after [n] calls of [next_back]. *)
Fixpoint after_back (rs : rsvec) (n : nat) (it : sel_iter) : res sel_iter :=
  match n with
  | O => Ok it
  | S n => let* it := after_back rs n it in let* '(it, _) := select_next_1_back rs it in Ok it
  end.
Definition fresh_back (rs : rsvec) (n : nat) : res sel_iter :=
  let* it := sel_new false rs in after_back rs n it.

(** Calling [next_back] once for each budget in [ks], or until the iterator is exhausted. *)
Fixpoint iter1_back_cut (kb : nat) (ks : list nat) (rs : rsvec) (it : sel_iter) : res (list N) :=
  match ks with
  | [] => Ok []
  | k :: ks =>
      let* '(it, o) := select_next_1_back_cut kb k rs it in
      match o with
      | None => Ok []
      | Some p => let* l := iter1_back_cut kb ks rs it in Ok (p :: l)
      end
  end.
