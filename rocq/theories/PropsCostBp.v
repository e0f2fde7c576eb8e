(** * C94, C95: how many steps the operations of balanced parentheses trees take. *)
From Verif Require Import Base Spec BaseFacts WordFacts BitVecModel BitVecProofs RsVecModel RsVecProofs RsVecSelect RsEqProofs
  BpModel BpExcess BpMmt BpSearch BpBlock BpTreeSpec PropsRsVec PropsBp PropsHeap CostModel PropsCost CostBpModel.

Lemma forM_cut {A S R} (f : S -> A -> res (S + R)) l : forall k s, lenN l <= N.of_nat k -> forM_ret_cut k l s f = forM_ret l s f.
Proof.
  induction l as [|x l IH]; intros k s H; [now destruct k|]. rewrite lenN_cons in H. destruct k as [|k]; [lia|].
  cbn [forM_ret_cut forM_ret]. destruct (f s x) as [[s'|v]| |]; cbn [bind]; auto. apply IH. lia.
Qed.

(** ** The min-max tree: nodes are numbered level by level. *)
Section Nodes.
Variable nodes : list enode.

Lemma fwd_down_cut k : forall k' node rel, node < lenN nodes ->
  lenN nodes < (node + 1) * 2 ^ N.of_nat k -> lenN nodes < (node + 1) * 2 ^ N.of_nat k' ->
  mmt_fwd_down k nodes node rel = mmt_fwd_down k' nodes node rel.
Proof.
  induction k as [|k IH]; intros k' node rel Hn H1 H2; [cbn in H1; lia|]. destruct k' as [|k']; [cbn in H2; lia|].
  rewrite Nat2N.inj_succ, N.pow_succ_r' in H1, H2. cbn [mmt_fwd_down].
  destruct (assert (node <? lenN nodes)); cbn [bind]; auto. destruct (mmt_is_leaf nodes node) as [[|]| |]; cbn [bind]; auto.
  unfold mmt_left_child. destruct (N.ltb_spec (node * 2 + 1) (lenN nodes)) as [L|L]; auto.
  destruct (idx nodes (node * 2 + 1)) as [nl| |]; cbn [bind]; auto.
  destruct ((nmin nl <=? rel)%Z && (rel <=? nmax nl)%Z); [apply IH; nia|].
  unfold mmt_right_child. destruct (N.ltb_spec (node * 2 + 2) (lenN nodes)) as [M|M]; auto.
  destruct (i64 (rel - ntotal nl)) as [rel'| |]; cbn [bind]; auto.
  destruct (idx nodes (node * 2 + 2)) as [nr| |]; cbn [bind]; auto.
  destruct ((nmin nr <=? rel')%Z && (rel' <=? nmax nr)%Z); [apply IH; nia|auto].
Qed.

Lemma bwd_down_cut k : forall k' node rel, node < lenN nodes ->
  lenN nodes < (node + 1) * 2 ^ N.of_nat k -> lenN nodes < (node + 1) * 2 ^ N.of_nat k' ->
  mmt_bwd_down k nodes node rel = mmt_bwd_down k' nodes node rel.
Proof.
  induction k as [|k IH]; intros k' node rel Hn H1 H2; [cbn in H1; lia|]. destruct k' as [|k']; [cbn in H2; lia|].
  rewrite Nat2N.inj_succ, N.pow_succ_r' in H1, H2. cbn [mmt_bwd_down].
  destruct (assert (node <? lenN nodes)); cbn [bind]; auto. destruct (mmt_is_leaf nodes node) as [[|]| |]; cbn [bind]; auto.
  unfold mmt_right_child. destruct (N.ltb_spec (node * 2 + 2) (lenN nodes)) as [M|M]; auto.
  destruct (idx nodes (node * 2 + 2)) as [nr| |]; cbn [bind]; auto.
  destruct (mmt_bwd_test nr rel) as [[|]| |]; cbn [bind]; auto; [apply IH; nia|].
  unfold mmt_left_child. destruct (N.ltb_spec (node * 2 + 1) (lenN nodes)) as [L|L]; auto.
  destruct (i64 (rel + ntotal nr)) as [rel'| |]; cbn [bind]; auto.
  destruct (idx nodes (node * 2 + 1)) as [nl| |]; cbn [bind]; auto.
  destruct (mmt_bwd_test nl rel') as [[|]| |]; cbn [bind]; auto. apply IH; nia.
Qed.

Lemma half_up node : 1 <= node -> 2 * ((node - 1) / 2 + 1) <= node + 1.
Proof. intros. pose proof (N.mul_div_le (node - 1) 2). lia. Qed.
Lemma len_pow : lenN nodes < 2 ^ N.of_nat (length nodes).
Proof. unfold lenN. apply N.pow_gt_lin_r. lia. Qed.

Variable kd : nat.
Hypothesis Hkd : lenN nodes < 2 * 2 ^ N.of_nat kd.

Lemma fwd_up_cut k : forall k' node rel, 1 <= node -> node + 1 < 2 * 2 ^ N.of_nat k -> node + 1 < 2 * 2 ^ N.of_nat k' ->
  mmt_fwd_up_cut kd k nodes node rel = mmt_fwd_up k' nodes node rel.
Proof.
  induction k as [|k IH]; intros k' node rel Hn H1 H2; [cbn in H1; lia|]. destruct k' as [|k']; [cbn in H2; lia|].
  rewrite Nat2N.inj_succ, N.pow_succ_r' in H1, H2. cbn [mmt_fwd_up mmt_fwd_up_cut]. pose proof (half_up node Hn) as Hh.
  assert (Hup : forall r, (if (node - 1) / 2 =? 0 then Ok None else mmt_fwd_up_cut kd k nodes ((node - 1) / 2) r) =
    (if (node - 1) / 2 =? 0 then Ok None else mmt_fwd_up k' nodes ((node - 1) / 2) r)).
  { intros r. destruct (N.eqb_spec ((node - 1) / 2) 0); auto. apply IH; lia. }
  unfold mmt_parent. destruct (N.ltb_spec node (lenN nodes)); [|reflexivity]. cbn [assert bind].
  destruct (negb (mmt_is_left_child node)); [apply Hup|].
  unfold mmt_right_sibling. destruct (node mod 2 =? 1); auto. destruct (N.leb_spec (lenN nodes) (node + 1)); auto.
  destruct (idx nodes (node + 1)) as [ns| |]; cbn [bind]; auto.
  destruct ((nmin ns <=? rel)%Z && (rel <=? nmax ns)%Z).
  - pose proof len_pow. apply fwd_down_cut; nia.
  - destruct (N.eqb_spec ((node - 1) / 2) 0); auto. destruct (i64 (rel - ntotal ns)) as [r| |]; cbn [bind]; [apply IH; lia|reflexivity|reflexivity].
Qed.

Lemma bwd_up_cut k : forall k' node rel, 1 <= node -> node + 1 < 2 * 2 ^ N.of_nat k -> node + 1 < 2 * 2 ^ N.of_nat k' ->
  mmt_bwd_up_cut kd k nodes node rel = mmt_bwd_up k' nodes node rel.
Proof.
  induction k as [|k IH]; intros k' node rel Hn H1 H2; [cbn in H1; lia|]. destruct k' as [|k']; [cbn in H2; lia|].
  rewrite Nat2N.inj_succ, N.pow_succ_r' in H1, H2. cbn [mmt_bwd_up mmt_bwd_up_cut]. pose proof (half_up node Hn) as Hh.
  unfold mmt_parent. destruct (N.ltb_spec node (lenN nodes)); [|reflexivity]. cbn [assert bind].
  destruct (mmt_is_left_child node).
  { destruct (N.eqb_spec ((node - 1) / 2) 0); auto. apply IH; lia. }
  unfold mmt_left_sibling. destruct (node mod 2 =? 0); auto. destruct (N.eqb_spec (node - 1) 0); auto.
  destruct (idx nodes (node - 1)) as [ns| |]; cbn [bind]; auto.
  destruct (mmt_bwd_test ns rel) as [[|]| |]; cbn [bind]; auto.
  - pose proof len_pow. apply bwd_down_cut; nia.
  - destruct (N.eqb_spec ((node - 1) / 2) 0); auto. destruct (i64 (rel + ntotal ns)) as [r| |]; cbn [bind]; [apply IH; lia|reflexivity|reflexivity].
Qed.

Lemma mmt_fwd_cut ku begin rel : lenN nodes < 2 * 2 ^ N.of_nat ku -> mmt_fwd_search_cut ku kd nodes begin rel = mmt_fwd_search nodes begin rel.
Proof.
  intros Hu. unfold mmt_fwd_search_cut, mmt_fwd_search. destruct (mmt_first_leaf nodes) as [f| |]; cbn [bind]; auto.
  destruct (N.leb_spec (lenN nodes) (begin + f)); auto. destruct (N.eqb_spec (begin + f) 0); auto. cbn [negb assert bind].
  pose proof len_pow. rewrite (fwd_up_cut ku (length nodes)) by lia. reflexivity.
Qed.
Lemma mmt_bwd_cut ku begin rel : lenN nodes < 2 * 2 ^ N.of_nat ku -> mmt_bwd_search_cut ku kd nodes begin rel = mmt_bwd_search nodes begin rel.
Proof.
  intros Hu. unfold mmt_bwd_search_cut, mmt_bwd_search. destruct (mmt_first_leaf nodes) as [f| |]; cbn [bind]; auto.
  destruct (N.leb_spec (lenN nodes) (begin + f)); auto. destruct (N.eqb_spec (begin + f) 0); auto. cbn [negb assert bind].
  pose proof len_pow. rewrite (bwd_up_cut ku (length nodes)) by lia. reflexivity.
Qed.

End Nodes.

(** A backward search ends at a node. *)
Section Inside.
Variable nodes : list enode.
Lemma bwd_down_in k : forall node rel v r, mmt_bwd_down k nodes node rel = Ok (Some (v, r)) -> v < lenN nodes.
Proof.
  induction k as [|k IH]; intros node rel v r H; [discriminate|]. cbn [mmt_bwd_down] in H.
  destruct (N.ltb_spec node (lenN nodes)); cbn [assert bind] in H; [|discriminate].
  destruct (mmt_is_leaf nodes node) as [[|]| |]; cbn [bind] in H; try discriminate.
  { destruct (node =? 0); [discriminate|]. injection H as <- _. auto. }
  destruct (mmt_right_child nodes node) as [c|]; [|discriminate]. destruct (idx nodes c) as [nr| |]; cbn [bind] in H; try discriminate.
  destruct (mmt_bwd_test nr rel) as [[|]| |]; cbn [bind] in H; try discriminate; [eauto|].
  destruct (mmt_left_child nodes node) as [c'|]; [|discriminate].
  destruct (i64 (rel + ntotal nr)) as [rel'| |]; cbn [bind] in H; try discriminate.
  destruct (idx nodes c') as [nl| |]; cbn [bind] in H; try discriminate.
  destruct (mmt_bwd_test nl rel') as [[|]| |]; cbn [bind] in H; try discriminate; eauto.
Qed.
Lemma bwd_up_in k : forall node rel v r, mmt_bwd_up k nodes node rel = Ok (Some (v, r)) -> v < lenN nodes.
Proof.
  induction k as [|k IH]; intros node rel v r H; [discriminate|]. cbn [mmt_bwd_up] in H.
  destruct (assert (node <? lenN nodes)); cbn [bind] in H; try discriminate.
  destruct (mmt_is_left_child node).
  { destruct (mmt_parent nodes node) as [p|]; [|discriminate]. destruct (p =? 0); [discriminate|]. eauto. }
  destruct (mmt_left_sibling node) as [s|]; [|discriminate]. destruct (idx nodes s) as [ns| |]; cbn [bind] in H; try discriminate.
  destruct (mmt_bwd_test ns rel) as [[|]| |]; cbn [bind] in H; try discriminate; [eapply bwd_down_in; eauto|].
  destruct (mmt_parent nodes node) as [p|]; [|discriminate]. destruct (p =? 0); [discriminate|].
  destruct (i64 (rel + ntotal ns)) as [rel'| |]; cbn [bind] in H; try discriminate; eauto.
Qed.
Lemma mmt_bwd_in f begin rel b r : mmt_first_leaf nodes = Ok f -> mmt_bwd_search nodes begin rel = Ok (Some (b, r)) -> b + f < lenN nodes.
Proof.
  intros E H. unfold mmt_bwd_search in H. rewrite E in H. cbn [bind] in H. destruct (lenN nodes <=? begin + f); [discriminate|].
  destruct (assert _); cbn [bind] in H; try discriminate.
  destruct (mmt_bwd_up _ nodes (begin + f) rel) as [[[v s]|]| |] eqn:Eu; cbn [bind] in H; try discriminate.
  apply bwd_up_in in Eu. unfold sub in H. destruct (N.leb_spec f v); cbn [bind] in H; [|discriminate]. injection H as <- _. lia.
Qed.
End Inside.

(** ** Blocks *)
Lemma div_ceil_mul a w : 0 < w -> a <= div_ceil a w * w /\ div_ceil a w * w < a + w.
Proof.
  intros. unfold div_ceil. pose proof (N.div_mod' (a + w - 1) w). pose proof (N.mod_lt (a + w - 1) w ltac:(lia)). nia.
Qed.
Lemma div_ceil_le a b w : 0 < w -> a <= b -> div_ceil a w <= div_ceil b w.
Proof. intros. apply N.div_le_mono; lia. Qed.
Lemma lenN_steps a b w : lenN (steps a b w) = div_ceil (b - a) w.
Proof. unfold steps. rewrite lenN_map, lenN_range. lia. Qed.

Section Block.
Variables (lk : lookup) (B : N) (t : bptree) (ks kl : nat).
Local Notation w := (lk_size lk).
Hypothesis Hw : 0 < w.
Hypothesis HB : 0 < B.
Hypothesis Hks : w <= N.of_nat ks.
Hypothesis Hkl : div_ceil B w <= N.of_nat kl.

Lemma fwd_block_cut start block rel : block * B <= start + 1 ->
  bp_fwd_search_block_cut lk B ks kl t start block rel = bp_fwd_search_block lk B t start block rel.
Proof using Hw HB Hks Hkl.
  intros H. unfold bp_fwd_search_block_cut, bp_fwd_search_block. cbv zeta.
  set (bd := N.min ((block + 1) * B) (rlen (bp_vec t))). set (lb := N.min (div_ceil (start + 1) w * w) bd). set (ub := N.max lb (bd / w * w)).
  pose proof (div_ceil_mul (start + 1) w Hw) as [D1 D2]. pose proof (N.mul_div_le bd w ltac:(lia)) as D3.
  pose proof (N.mul_succ_div_gt bd w ltac:(lia)) as D4.
  rewrite (forM_cut _ (range (start + 1) lb)) by (rewrite lenN_range; unfold lb; lia).
  destruct (forM_ret (range (start + 1) lb) rel (scan_fwd (bp_vec t))) as [[r|i]| |]; cbn [bind]; auto.
  rewrite (forM_cut _ (steps lb ub w)).
  2:{ rewrite lenN_steps. pose proof (div_ceil_le (ub - lb) B w Hw). unfold ub, lb in *. lia. }
  destruct (forM_ret (steps lb ub w) r _) as [[r'|i]| |]; cbn [bind]; auto.
  rewrite forM_cut; auto. rewrite lenN_range. unfold ub. lia.
Qed.

Lemma bwd_block_cut start block rel : start <= (block + 1) * B -> block * B <= rlen (bp_vec t) ->
  bp_bwd_search_block_cut lk B ks kl t start block rel = bp_bwd_search_block lk B t start block rel.
Proof using Hw HB Hks Hkl.
  intros H H'. unfold bp_bwd_search_block_cut, bp_bwd_search_block. cbv zeta.
  set (bd := N.min (block * B) (rlen (bp_vec t))). unfold sub. destruct (N.leb_spec 1 start); cbn [bind]; auto.
  set (lb := N.max ((start - 1) / w * w) bd).
  pose proof (N.mul_div_le (start - 1) w ltac:(lia)) as D3. pose proof (N.mul_succ_div_gt (start - 1) w ltac:(lia)) as D4.
  rewrite (forM_cut _ (rev (range lb start))) by (rewrite lenN_rev, lenN_range; unfold lb; lia).
  destruct (forM_ret (rev (range lb start)) rel (scan_bwd (bp_vec t))) as [[r|i]| |]; cbn [bind]; auto.
  rewrite forM_cut; auto. rewrite lenN_rev, lenN_steps. pose proof (div_ceil_le (lb - bd) B w Hw). unfold lb, bd in *. lia.
Qed.
End Block.

(** ** The searches *)
Section Tree.
Variables (lk : lookup) (B : N) (l : list bool) (t : bptree).
Local Notation w := (lk_size lk).
Hypothesis Hw : 0 < w.
Hypothesis Hb : built_from B l t.
Variables ks kl ku kd : nat.
Hypothesis Hks : w <= N.of_nat ks.
Hypothesis Hkl : ceil_div B w <= N.of_nat kl.
Hypothesis Hku : N.max 1 (N.log2_up (ceil_div (lenN l) B)) <= N.of_nat ku.
Hypothesis Hkd : N.max 1 (N.log2_up (ceil_div (lenN l) B)) <= N.of_nat kd.

Lemma nodes_pow k : 0 < lenN l -> N.max 1 (N.log2_up (ceil_div (lenN l) B)) <= N.of_nat k -> lenN (bp_mmt t) < 2 * 2 ^ N.of_nat k.
Proof using Hb.
  clear Hw Hku Hks Hkl Hkd ks kl ku kd lk. intros HL Hk. destruct (built_good _ _ _ Hb) as (bv & [Hwf HB G Hm] & Hl & Hlen). rewrite Hlen in Hm. specialize (Hm HL). rewrite Hl in Hm.
  rewrite (nodes_len l B (bp_mmt t) HB HL Hm). unfold height. change (nleaves (lenN l) B) with (ceil_div (lenN l) B). set (n := ceil_div (lenN l) B) in *.
  assert (n <= 2 ^ N.log2_up n).
  { destruct (N.eq_dec n 0) as [->|]; [cbn; lia|]. apply N.log2_up_le_pow2; lia. }
  pose proof (N.pow_le_mono_r 2 (N.max 1 (N.log2_up n)) (N.of_nat k) ltac:(lia) Hk).
  pose proof (N.pow_le_mono_r 2 (N.log2_up n) (N.max 1 (N.log2_up n)) ltac:(lia) ltac:(lia)).
  pose proof (pow2_pos (N.max 1 (N.log2_up n))). lia.
Qed.

Lemma fwd_cut index rel : bp_fwd_search_cut lk B ks kl ku kd t index rel = bp_fwd_search lk B t index rel.
Proof using Hw Hb Hks Hkl Hku Hkd.
  destruct (built_good _ _ _ Hb) as (bv & [Hwf HB G Hm] & Hl & Hlen). unfold bp_fwd_search_cut, bp_fwd_search.
  rewrite (good_len _ _ G), Hlen. unfold sub. destruct (N.leb_spec 1 (lenN l)) as [HL|HL]; cbn [bind]; auto.
  destruct (lenN l - 1 <=? index); auto.
  rewrite fwd_block_cut; auto; [|pose proof (N.mul_div_le (index + 1) B ltac:(lia)); lia].
  destruct (bp_fwd_search_block lk B t index _ rel) as [[r|i]| |]; cbn [bind]; auto.
  rewrite mmt_fwd_cut by (apply nodes_pow; auto; lia).
  destruct (mmt_fwd_search (bp_mmt t) _ r) as [[[b r']|]| |]; cbn [bind]; auto.
  destruct (N.leb_spec 1 (b * B)); cbn [bind]; auto.
  rewrite fwd_block_cut; auto; lia.
Qed.

Lemma bwd_cut index rel : bp_bwd_search_cut lk B ks kl ku kd t index rel = bp_bwd_search lk B t index rel.
Proof using Hw Hb Hks Hkl Hku Hkd.
  destruct (built_good _ _ _ Hb) as (bv & [Hwf HB G Hm] & Hl & Hlen). unfold bp_bwd_search_cut, bp_bwd_search.
  rewrite (good_len _ _ G), Hlen. destruct (N.leb_spec (lenN l) index) as [HL|HL]; auto. destruct (N.eqb_spec index 0); auto.
  assert (HL0 : 0 < lenN l) by lia.
  rewrite bwd_block_cut; auto.
  2:{ pose proof (N.mul_succ_div_gt (index - 1) B ltac:(lia)). lia. }
  2:{ rewrite (good_len _ _ G), Hlen. pose proof (N.mul_div_le (index - 1) B ltac:(lia)). lia. }
  destruct (bp_bwd_search_block lk B t index _ rel) as [[r|i]| |]; cbn [bind]; auto.
  rewrite mmt_bwd_cut by (apply nodes_pow; auto; lia).
  destruct (mmt_bwd_search (bp_mmt t) _ r) as [[[b r']|]| |] eqn:Em; cbn [bind]; auto.
  rewrite bwd_block_cut; auto; [lia|]. rewrite (good_len _ _ G), Hlen.
  rewrite Hlen in Hm. specialize (Hm HL0). rewrite Hl in Hm.
  pose proof (first_leaf_ok l B (bp_mmt t) HB HL0 Hm) as Ef. pose proof (mmt_bwd_in _ _ _ _ _ _ Ef Em) as Hin.
  rewrite (nodes_len l B (bp_mmt t) HB HL0 Hm) in Hin.
  assert (Hb' : b < ceil_div (lenN l) B) by (change (ceil_div (lenN l) B) with (nleaves (lenN l) B); lia).
  unfold ceil_div in Hb'. pose proof (N.mul_div_le (lenN l + B - 1) B ltac:(lia)). nia.
Qed.
End Tree.

(** ** C94 *)
Theorem C94_operations lk B l t : a_lookup lk -> built_from B l t ->
  let bits_budget := N.to_nat (lk_size lk) in
  let lookup_budget := N.to_nat (ceil_div B (lk_size lk)) in
  let h := N.to_nat (N.max 1 (N.log2_up (ceil_div (lenN l) B))) in
  let fwd := bp_fwd_search_cut lk B bits_budget lookup_budget h h in
  let bwd := bp_bwd_search_cut lk B bits_budget lookup_budget h h in
  forall x y d,
  fwd t x d = bp_fwd_search lk B t x d /\ bwd t x d = bp_bwd_search lk B t x d /\
  gen_close fwd t x = bp_close lk B t x /\ gen_open bwd t x = bp_open lk B t x /\ gen_enclose bwd t x = bp_enclose lk B t x /\
  gen_parent bwd t x = bp_parent lk B t x /\ gen_next_sibling fwd t x = bp_next_sibling lk B t x /\
  gen_previous_sibling bwd t x = bp_previous_sibling lk B t x /\ gen_last_child fwd bwd t x = bp_last_child lk B t x /\
  gen_is_ancestor fwd t x y = bp_is_ancestor lk B t x y /\ gen_level_ancestor bwd t x y = bp_level_ancestor lk B t x y /\
  gen_level_next fwd t x = bp_level_next lk B t x /\ gen_level_prev bwd t x = bp_level_prev lk B t x /\
  gen_level_leftmost fwd t y = bp_level_leftmost lk B t y /\ gen_level_rightmost bwd t y = bp_level_rightmost lk B t y /\
  gen_subtree_size fwd t x = bp_subtree_size lk B t x.
Proof.
  intros Hlk Hb kb kl h fwd bwd x y d.
  assert (Hw : 0 < lk_size lk) by (destruct Hlk as [->| ->]; cbn; lia).
  assert (F : forall i r, fwd t i r = bp_fwd_search lk B t i r).
  { intros. apply (fwd_cut lk B l t); auto; unfold kb, kl, h; rewrite N2Nat.id; lia. }
  assert (R : forall i r, bwd t i r = bp_bwd_search lk B t i r).
  { intros. apply (bwd_cut lk B l t); auto; unfold kb, kl, h; rewrite N2Nat.id; lia. }
  clearbody fwd bwd.
  unfold gen_parent, gen_next_sibling, gen_previous_sibling, gen_last_child, gen_is_ancestor, gen_level_ancestor, gen_level_next, gen_level_prev,
    gen_level_leftmost, gen_level_rightmost, gen_subtree_size, bp_parent, bp_next_sibling, bp_previous_sibling, bp_last_child, bp_is_ancestor,
    bp_level_ancestor, bp_level_next, bp_level_prev, bp_level_leftmost, bp_level_rightmost, bp_subtree_size.
  assert (Cl : forall i, gen_close fwd t i = bp_close lk B t i) by (intros; unfold gen_close, bp_close; now rewrite F).
  assert (Op : forall i, gen_open bwd t i = bp_open lk B t i) by (intros; unfold gen_open, bp_open; now rewrite R).
  assert (En : forall i, gen_enclose bwd t i = bp_enclose lk B t i).
  { intros. unfold gen_enclose, bp_enclose. destruct (rs_get_unchecked (bp_vec t) i); cbn [bind]; auto. now rewrite R. }
  repeat apply conj; auto; rewrite ?En, ?Cl, ?R; auto.
  - destruct (bp_assert_node t x); cbn [bind]; auto. destruct (x =? 0); auto. destruct (rs_get (bp_vec t) (x - 1)) as [[b|]| |]; cbn [bind]; auto. destruct (b =? 0); auto.
  - destruct (bp_assert_node t x); cbn [bind]; auto. destruct (rs_get (bp_vec t) (x + 1)) as [[b|]| |]; cbn [bind]; auto. destruct (b =? 1); auto.
    destruct (bp_close lk B t x) as [[i|]| |]; cbn [bind]; auto. destruct (sub i 1); cbn [bind]; auto.
  - destruct (y =? 0); auto. destruct (i64 (- as_i64 y)); cbn [bind]; auto.
  - destruct (bp_close lk B t x) as [[i|]| |]; cbn [bind]; auto.
  - destruct (bp_bwd_search lk B t x 1) as [[i|]| |]; cbn [bind]; auto.
  - destruct (y =? 0); auto.
  - destruct (bp_size t) as [s| |]; cbn [bind]; auto. destruct (sub (s * 2) 1) as [s'| |]; cbn [bind]; auto. rewrite R.
    destruct (bp_bwd_search lk B t s' (as_i64 y)) as [[i|]| |]; cbn [bind]; auto.
Qed.

(** Eight blocks, so three steps up and three down: two are not enough. *)
Example C94_ex : match mk 8 (repeat true 32 ++ repeat false 32) with
  | Ok t => bp_fwd_search_cut lookup8 8 8 1 3 3 t 0 (-1) = Ok (Some 63) /\ bp_fwd_search_cut lookup8 8 8 1 2 3 t 0 (-1) = Diverge /\
      bp_fwd_search_cut lookup8 8 8 1 3 2 t 0 (-1) = Diverge /\ bp_bwd_search_cut lookup8 8 8 1 3 3 t 63 (-1) = Ok (Some 0)
  | _ => False
  end.
Proof. vm_compute. auto. Qed.

(** ** C95 *)
Lemma count_repeat b c n : count b (repeat c n) = if Bool.eqb b c then N.of_nat n else 0.
Proof. induction n as [|n IH]; [now destruct b, c|]. cbn [repeat]. change (c :: repeat c n) with ([c] ++ repeat c n). rewrite count_app, IH. destruct b, c; cbn; lia. Qed.
Lemma select_mid b x y : select_spec b (x ++ b :: y) (count b x) = lenN x.
Proof.
  unfold select_spec. rewrite BpTreeFacts.positions_app, <- lenN_positions.
  assert (E : exists z, positions b (b :: y) = 0 :: z) by (unfold positions; cbn [positions_from]; destruct b; cbn; eexists; reflexivity).
  destruct E as (z & ->). cbn [map]. rewrite WaveletProofs.getN_app_mid. lia.
Qed.

(** A path of [n] nodes below each other. *)
Fixpoint chain (n : nat) : tree := match n with O => Node [] | S n => Node [chain n] end.
Lemma enc_chain n : enc (chain n) = repeat true (S n) ++ repeat false (S n).
Proof.
  induction n as [|n IH]; [reflexivity|]. change (enc (chain (S n))) with (true :: (enc (chain n) ++ []) ++ [false]). rewrite IH, app_nil_r.
  rewrite <- app_assoc. rewrite <- (repeat_cons (S n) false). reflexivity.
Qed.
(** A root with a long chain and a leaf. *)
Definition hook (n : nat) : tree := Node [chain n; Node []].
Lemma enc_hook n : enc (hook n) = repeat true (S (S n)) ++ repeat false (S n) ++ [true; false; false].
Proof.
  change (enc (hook n)) with (true :: (enc (chain n) ++ [true; false] ++ []) ++ [false]). rewrite enc_chain. cbn [repeat app].
  rewrite <- !app_assoc. reflexivity.
Qed.

Lemma built_vec B bv t : bp_from_bit_vector B bv = Ok t -> rs_from_bit_vec bv = Ok (bp_vec t).
Proof.
  intros Eb. unfold bp_from_bit_vector in Eb. destruct (mmt_excess_tree bv B); cbn [bind] in Eb; try discriminate.
  destruct (rs_from_bit_vec bv); cbn [bind] in Eb; try discriminate. injection Eb as <-. reflexivity.
Qed.

Theorem C95_node_handle B l t r kb kl : built_from B l t -> r < count true l -> N.log2_up (lenN l / 8192 + 1) <= N.of_nat kb ->
  let p := select_spec true l r in
  bp_node_handle_cut kb kl t r = if p / 8192 - sample_super true l r <=? N.of_nat kl then Ok p else Diverge.
Proof. intros (bv & Hwf & <- & _ & Eb) Hr Hk. apply C91_select1; auto. eapply built_vec; eauto. Qed.

Theorem C95_refuted B : 0 < B -> ~ exists c, forall s t r, built_from B (enc s) t -> r < tsize s ->
  let k := N.to_nat (c * (N.log2 (tsize s) + 1)) in bp_node_handle_cut k k t r = bp_node_handle t r.
Proof.
  intros HB (c & H). set (m := 2 ^ (c + 8)). assert (Hm : m <> 0) by (apply N.pow_nonzero; lia).
  set (n := N.to_nat (8192 * m - 1)). assert (Hn : N.of_nat (S n) = 8192 * m) by (unfold n; lia).
  pose proof (enc_hook n) as Ee. set (s := hook n) in *.
  assert (Ct : tsize s = 8192 * m + 2).
  { destruct (BpTreeFacts.count_enc s) as [<- _]. rewrite Ee, !count_app, !count_repeat. cbn [Bool.eqb]. change (count true [true; false; false]) with 1. lia. }
  destruct (built_from_exists B (enc s) HB) as (t & Ht). set (r := 8192 * m + 1).
  specialize (H s t r Ht ltac:(unfold r; lia)). cbn zeta in H.
  destruct Ht as (bv & Hwf & Hl & _ & Eb).
  assert (E : rs_from_bit_vec bv = Ok (bp_vec t)).
  { eapply built_vec; eauto. }
  assert (S1 : select_spec true (bits bv) r = 16384 * m + 1).
  { rewrite Hl, Ee, app_assoc. replace r with (count true (repeat true (S (S n)) ++ repeat false (S n))).
    - rewrite select_mid, lenN_app, !lenN_repeat. lia.
    - rewrite count_app, !count_repeat. cbn [Bool.eqb]. unfold r. lia. }
  assert (S2 : select_spec true (bits bv) (8192 * m - 1) = 8192 * m - 1).
  { rewrite Hl, Ee. replace (repeat true (S (S n))) with (repeat true n ++ true :: [true]).
    2:{ replace (S (S n)) with (n + 2)%nat by lia. rewrite repeat_app. reflexivity. }
    rewrite <- app_assoc. replace (8192 * m - 1) with (count true (repeat true n)) at 1 by (rewrite count_repeat; cbn [Bool.eqb]; lia).
    cbn [app]. rewrite select_mid, lenN_repeat. lia. }
  assert (Hr : r < count true (bits bv)).
  { rewrite Hl. destruct (BpTreeFacts.count_enc s) as [-> _]. unfold r. lia. }
  unfold bp_node_handle, bp_node_handle_cut in H. rewrite (proj1 (PropsRsVec.C13_select bv (bp_vec t) r Hwf E)) in H.
  set (k := N.to_nat _) in H.
  apply (select1_cut_mono k (Nat.max k (N.to_nat (N.log2_up (lenN (bits bv) / 8192 + 1)))) k) in H; [|lia].
  rewrite (C91_select1 bv (bp_vec t) r (Nat.max k (N.to_nat (N.log2_up (lenN (bits bv) / 8192 + 1)))) k Hwf E Hr ltac:(lia)), S1 in H.
  assert (Es : sample_super true (bits bv) r = m - 1).
  { unfold sample_super. destruct (N.ltb_spec r 8192) as [L|L]; [unfold r in L; lia|].
    replace (r / 8192) with m by (unfold r; apply N.div_unique with (r := 1); lia). rewrite S2. symmetry. apply N.div_unique with (r := 8191); lia. }
  rewrite Es in H. replace ((16384 * m + 1) / 8192) with (2 * m) in H by (apply N.div_unique with (r := 1); lia).
  destruct (N.leb_spec (2 * m - (m - 1)) (N.of_nat k)) as [L|L]; [|discriminate]. unfold k in L. rewrite N2Nat.id, Ct in L.
  pose proof (pow_beats c) as P. fold m in P.
  assert (N.log2 (8192 * m + 2) < c + 8 + 14).
  { apply N.log2_lt_pow2; [lia|]. rewrite (N.pow_add_r 2 (c + 8)). fold m. change (2 ^ 14) with 16384. lia. }
  clearbody m. clear - P L H0. nia.
Qed.

(** The encoding of [hook 8191]: the second child of the root is behind a chain of 8192 nodes, and its handle is two super-blocks after the sample's. *)
Example C95_ex : let bv := mkbv (repeat (2 ^ 64 - 1) 128 ++ [1] ++ repeat 0 127 ++ [2]) 16388 in
  match rs_from_bit_vec bv with
  | Ok rs => bp_node_handle_cut 2 1 (mkbp rs []) 8193 = Diverge /\ bp_node_handle_cut 2 2 (mkbp rs []) 8193 = Ok 16385
  | _ => False
  end.
Proof. vm_compute. auto. Qed.
