(** * Proofs about [RsVec::select0] and [RsVec::select1]. *)
From Verif Require Import Base Spec BaseFacts WordFacts BitVecModel BitVecProofs RsVecModel
  PdepProofs RsVecProofs.

(** The rank of a hit [p] compares with counts exactly as [p] compares with positions. *)
Lemma cnt_leb f p q : f p = true -> (cnt f q <=? cnt f p) = (q <=? p).
Proof.
  intros Hp. destruct (N.leb_spec q p) as [L|L].
  - apply N.leb_le. now apply cnt_mono.
  - apply N.leb_gt. now apply cnt_lt.
Qed.

Lemma forM_ret_range_inv {S R} (P : N -> S -> Prop) (Q : R -> Prop) a b s (f : S -> N -> res (S + R)) :
  a <= b -> P a s ->
  (forall i s, a <= i -> i < b -> P i s ->
     (exists s', f s i = Ok (inl s') /\ P (i + 1) s') \/ (exists r, f s i = Ok (inr r) /\ Q r)) ->
  (exists s', forM_ret (range a b) s f = Ok (inl s') /\ P b s') \/
  (exists r, forM_ret (range a b) s f = Ok (inr r) /\ Q r).
Proof.
  intros Hab HP Hstep.
  remember (N.to_nat (b - a)) as n eqn:En. revert a s Hab HP Hstep En.
  induction n as [|n IH]; intros a s Hab HP Hstep En.
  - assert (a = b) by lia. subst. rewrite range_nil by lia. cbn. eauto.
  - rewrite range_cons by lia. cbn [forM_ret].
    destruct (Hstep a s) as [(s1 & E1 & HP1)|(r & E1 & Hr)]; auto; try lia; rewrite E1; cbn [bind]; eauto.
    apply IH; auto; try lia. intros i s2 H1 H2. apply Hstep; lia.
Qed.

Section Zero.
Variables (bv : bitvec) (rs : rsvec) (p : N).
Hypothesis Hwf : wf bv.
Hypothesis G : rs_good bv rs.
Hypothesis Hp : p < blen bv.
Let d := bdata bv.
Let Z := cnt (zbit d).
Hypothesis Hb : zbit d p = true.

Lemma n_supers_in : p / 8192 < lenN (rsupers rs).
Proof using Hwf G Hp. clear Hb. rewrite (good_supers_len _ _ G). destruct Hwf as [-> _]. dlia. Qed.
Lemma n_blocks_in : p / 512 < lenN (rblocks rs).
Proof using Hwf G Hp. clear Hb. rewrite (good_blocks_len _ _ G). destruct Hwf as [-> _]. dlia. Qed.
Lemma n_data_in : p / 64 < lenN d.
Proof using Hwf Hp. clear Hb. unfold d. destruct Hwf as [-> _]. dlia. Qed.

Lemma super0_cmp s : s < lenN (rsupers rs) -> (nthN 0 (rsupers rs) s <=? Z p) = (s <=? p / 8192).
Proof.
  intros Hs. rewrite (good_supers _ _ G) by auto. fold d Z. unfold Z. rewrite cnt_leb by auto.
  destruct (N.leb_spec (8192 * s) p), (N.leb_spec s (p / 8192)); auto; exfalso; dlia.
Qed.

Lemma search_super0_bin_ok fuel sb ub : sb <= ub -> ub < lenN (rsupers rs) -> sb <= p / 8192 ->
  (N.to_nat (ub - sb) < fuel)%nat ->
  exists sb', search_super0_bin fuel rs (Z p) sb ub = Ok sb' /\ sb' <= p / 8192.
Proof.
  revert sb ub. induction fuel as [|fuel IH]; intros sb ub H1 H2 H3 H4; [lia|].
  cbn [search_super0_bin]. rewrite sub_ok by lia. cbn [bind].
  destruct (N.ltb_spec 8 (ub - sb)) as [L|L]; [|eauto].
  assert (sb + (ub - sb) / 2 < ub /\ sb < sb + (ub - sb) / 2) as [? ?] by dlia.
  rewrite (idx_ok 0) by lia. cbn [bind]. rewrite super0_cmp by lia.
  destruct (N.leb_spec (sb + (ub - sb) / 2) (p / 8192)).
  - apply IH; lia.
  - apply IH; lia.
Qed.

Lemma search_super0_lin_ok fuel sb : sb <= p / 8192 -> (N.to_nat (p / 8192 - sb) < fuel)%nat ->
  search_super0_lin fuel rs (Z p) sb = Ok (p / 8192).
Proof.
  pose proof n_supers_in as Hn.
  revert sb. induction fuel as [|fuel IH]; intros sb H1 H2; [lia|].
  cbn [search_super0_lin].
  destruct (N.ltb_spec (sb + 1) (lenN (rsupers rs))) as [L|L].
  - rewrite (idx_ok 0) by lia. cbn [bind]. rewrite super0_cmp by lia.
    destruct (N.leb_spec (sb + 1) (p / 8192)).
    + apply IH; lia.
    + f_equal. lia.
  - cbn [bind]. f_equal. lia.
Qed.

Lemma block0_cmp b : b < lenN (rblocks rs) -> b / 16 = p / 8192 ->
  (nthN 0 (rblocks rs) b <=? Z p - Z (8192 * (p / 8192))) = (b <=? p / 512).
Proof.
  intros Hbl Hbs. rewrite (good_blocks _ _ G) by auto. fold d Z. rewrite Hbs.
  assert (E : (Z (512 * b) <=? Z p) = (512 * b <=? p)) by now apply cnt_leb.
  assert (M : Z (8192 * (p / 8192)) <= Z p) by (apply cnt_mono; dlia).
  assert (M' : Z (8192 * (p / 8192)) <= Z (512 * b)) by (apply cnt_mono; dlia).
  destruct (N.leb_spec (Z (512 * b)) (Z p)) as [A|A], (N.leb_spec (512 * b) p) as [B|B];
    try discriminate;
    destruct (N.leb_spec b (p / 512)) as [C|C]; try (exfalso; dlia).
  - apply N.leb_le. lia.
  - apply N.leb_gt. lia.
Qed.

Lemma search_block0_step_ok bi b : bi / 16 = p / 8192 -> bi <= p / 512 -> p / 512 < bi + 2 * b -> 0 < b ->
  (bi mod 16) + 2 * b <= 16 ->
  exists bi', search_block0_step rs (Z p - Z (8192 * (p / 8192))) bi b = Ok bi' /\
    bi' / 16 = p / 8192 /\ bi' <= p / 512 /\ p / 512 < bi' + b /\ bi' mod 16 + b <= 16.
Proof.
  intros H1 H2 H3 H4 H5. unfold search_block0_step. pose proof n_blocks_in as Hn.
  destruct (N.ltb_spec (bi + b) (lenN (rblocks rs))) as [L|L].
  - rewrite (idx_ok 0) by auto. cbn [bind].
    assert ((bi + b) / 16 = p / 8192) by dlia.
    rewrite block0_cmp by auto. destruct (N.leb_spec (bi + b) (p / 512)).
    + eexists. split; [reflexivity|]. repeat split; auto; try lia; dlia.
    + eexists. split; [reflexivity|]. repeat split; auto; lia.
  - eexists. split; [reflexivity|]. repeat split; auto; lia.
Qed.

Lemma search_block0_ok :
  search_block0 rs (Z p - Z (8192 * (p / 8192))) (16 * (p / 8192)) = Ok (p / 512).
Proof.
  unfold search_block0. cbn [forM].
  destruct (search_block0_step_ok (16 * (p / 8192)) 8) as (b1 & -> & A1 & A2 & A3 & A4); try dlia.
  cbn [bind].
  destruct (search_block0_step_ok b1 4) as (b2 & -> & B1 & B2 & B3 & B4); try lia. cbn [bind].
  destruct (search_block0_step_ok b2 2) as (b3 & -> & C1 & C2 & C3 & C4); try lia. cbn [bind].
  destruct (search_block0_step_ok b3 1) as (b4 & -> & D1 & D2 & D3 & D4); try lia. cbn [bind].
  f_equal. lia.
Qed.

Lemma zword_testbit q : q < 64 -> forall w,
  N.testbit (not64 (nthN 0 d w)) q = zbit d (64 * w + q).
Proof.
  intros Hq w. rewrite not64_spec. destruct (N.ltb_spec q 64); [|lia].
  unfold zbit, bit_at. replace ((64 * w + q) / 64) with w by dlia.
  replace ((64 * w + q) mod 64) with q by dlia. now destruct (N.testbit _ q).
Qed.

Lemma pdep_hit0 : pdep_select (Z p - Z (64 * (p / 64))) (not64 (nthN 0 d (p / 64))) = Ok (p mod 64).
Proof.
  assert (p mod 64 < 64) by (apply N.mod_lt; lia).
  apply pdep_select_ok.
  - apply not64_lt, words_nth, Hwf.
  - rewrite zword_testbit by auto. now replace (64 * (p / 64) + p mod 64) with p by dlia.
  - assert (E : Z p = Z (64 * (p / 64)) + cnt (fun i => zbit d (64 * (p / 64) + i)) (p mod 64)).
    { unfold Z. rewrite <- cnt_add. f_equal. dlia. }
    rewrite E. rewrite (cnt_ext _ (fun i => zbit d (64 * (p / 64) + i))); [lia|].
    intros i Hi. apply zword_testbit. lia.
Qed.

Lemma zeros_cmp w : w <= p / 64 ->
  (count_zeros64 (nthN 0 d w) <=? Z p - Z (64 * w)) = (w + 1 <=? p / 64).
Proof.
  intros Hw.
  assert (E : (Z (64 * w + 64) <=? Z p) = (64 * w + 64 <=? p)) by now apply cnt_leb.
  unfold Z in E at 1. rewrite cnt_zword in E by lia. fold Z in E.
  unfold count_zeros64. rewrite popcount64 by (apply words_nth, Hwf).
  assert (Z (64 * w) <= Z p) by (apply cnt_mono; dlia).
  destruct (N.leb_spec (64 * w + 64) p), (N.leb_spec (w + 1) (p / 64)); try (exfalso; dlia).
  - apply N.leb_le in E. apply N.leb_le. lia.
  - apply N.leb_gt in E. apply N.leb_gt. lia.
Qed.

Lemma search_word0_ok :
  search_word_in_block0 rs (Z p - Z (512 * (p / 512))) (p / 512) = Ok p.
Proof.
  unfold search_word_in_block0. change BLOCK_SIZE with 512.
  replace (p / 512 * 512 / 64) with (8 * (p / 512)) by dlia.
  rewrite (good_data _ _ G). fold d. pose proof n_data_in as Hd.
  match goal with |- context [forM_ret (range 0 7) (?rr, 0) ?ff] =>
    destruct (forM_ret_range_inv (S := N * N) (R := N)
      (fun n '(r, c) => 8 * (p / 512) + n <= p / 64 /\ r = Z p - Z (64 * (8 * (p / 512) + n)) /\ c = 64 * n)
      (fun q => q = p) 0 7 (rr, 0) ff) as [((r' & c') & E & H1 & H2 & H3)|(q & E & H1)] end.
  - lia.
  - repeat split; try dlia. f_equal. f_equal. lia.
  - intros n (r, c) _ Hn (H1 & -> & ->). rewrite (idx_ok 0) by lia. cbn [bind].
    rewrite zeros_cmp by auto. destruct (N.leb_spec (8 * (p / 512) + n + 1) (p / 64)) as [L|L].
    + left. assert (M : Z (64 * (8 * (p / 512) + n) + 64) <= Z p) by (apply cnt_mono; dlia).
      assert (E : Z (64 * (8 * (p / 512) + n) + 64) =
        Z (64 * (8 * (p / 512) + n)) + count_zeros64 (nthN 0 d (8 * (p / 512) + n))).
      { unfold Z. rewrite cnt_zword by lia. unfold count_zeros64.
        now rewrite popcount64 by (apply words_nth, Hwf). }
      rewrite sub_ok by lia. cbn [bind]. eexists. split; [reflexivity|].
      cbn. repeat split; try lia.
      replace (64 * (8 * (p / 512) + (n + 1))) with (64 * (8 * (p / 512) + n) + 64) by lia. lia.
    + right. replace (8 * (p / 512) + n) with (p / 64) by lia. rewrite pdep_hit0. cbn [bind].
      eexists. split; [reflexivity|]. dlia.
  - rewrite E. cbn [bind]. rewrite (idx_ok 0) by lia. cbn [bind]. subst.
    replace (8 * (p / 512) + 7) with (p / 64) by dlia. rewrite pdep_hit0. cbn [bind].
    f_equal. dlia.
  - rewrite E. cbn [bind]. now subst.
Qed.

Lemma rs_select0_with_hit (search : rsvec -> N -> N -> res N) :
  search rs (Z p - Z (8192 * (p / 8192))) (16 * (p / 8192)) = Ok (p / 512) ->
  rs_select0_with search rs (Z p) = Ok p.
Proof.
  intros Hsearch. unfold rs_select0_with. rewrite (good_rank0 _ _ G). fold d Z.
  assert (Hr : Z p < Z (blen bv)) by now apply cnt_lt.
  destruct (N.leb_spec (Z (blen bv)) (Z p)); [lia|].
  change SELECT_BLOCK_SIZE with 8192.
  destruct (good_sel0 _ _ G (Z p) Hr) as (S1 & S2 & S3 & S4). fold d Z in S4.
  rewrite (idx_ok (0, 0)) by lia. cbn [bind]. fold (g0 (rsel rs) (Z p / 8192)).
  set (sb := g0 (rsel rs) (Z p / 8192)) in *.
  assert (Hsb : sb <= p / 8192).
  { apply N.leb_le in S4. unfold Z in S4. rewrite cnt_leb in S4 by auto. apply N.leb_le in S4. dlia. }
  pose proof n_supers_in as Hns. pose proof n_blocks_in as Hnb.
  match goal with |- context [bind (if ?c then ?a else ?b) _] => set (go := if c then a else b) end.
  assert (Ego : go = Ok (sb + 1 <=? p / 8192)).
  { unfold go. destruct (N.ltb_spec (sb + 1) (lenN (rsupers rs))).
    - rewrite (idx_ok 0) by auto. cbn [bind]. now rewrite super0_cmp.
    - f_equal. symmetry. apply N.leb_gt. lia. }
  rewrite Ego. cbn [bind]. clear go Ego.
  match goal with |- context [bind (if ?c then ?a else ?b) _] => set (ss := if c then a else b) end.
  assert (Ess : ss = Ok (p / 8192)).
  { unfold ss. destruct (N.leb_spec (sb + 1) (p / 8192)); [|f_equal; lia].
    unfold search_super_block0. change SELECT_BLOCK_SIZE with 8192. rewrite (idx_ok (0, 0)) by auto.
    cbn [bind]. fold (g0 (rsel rs) (Z p / 8192 + 1)).
    destruct (search_super0_bin_ok (S (N.to_nat (g0 (rsel rs) (Z p / 8192 + 1)))) sb (g0 (rsel rs) (Z p / 8192 + 1)))
      as (sb' & -> & Hsb'); auto; try lia.
    cbn [bind]. apply search_super0_lin_ok; auto. unfold lenN in Hns. lia. }
  rewrite Ess. cbn [bind]. clear ss Ess.
  rewrite (idx_ok 0) by auto. cbn [bind]. rewrite (good_supers _ _ G) by auto. fold d Z.
  assert (Z (8192 * (p / 8192)) <= Z p) by (apply cnt_mono; dlia).
  rewrite sub_ok by auto. cbn [bind].
  change (SUPER_BLOCK_SIZE / BLOCK_SIZE) with 16. rewrite (N.mul_comm (p / 8192) 16).
  rewrite Hsearch. cbn [bind].
  rewrite (idx_ok 0) by auto. cbn [bind]. rewrite (good_blocks _ _ G) by auto. fold d Z.
  replace (p / 512 / 16) with (p / 8192) by dlia.
  assert (Z (8192 * (p / 8192)) <= Z (512 * (p / 512))) by (apply cnt_mono; dlia).
  assert (Z (512 * (p / 512)) <= Z p) by (apply cnt_mono; dlia).
  rewrite sub_ok by lia. cbn [bind].
  replace (Z p - Z (8192 * (p / 8192)) - (Z (512 * (p / 512)) - Z (8192 * (p / 8192))))
    with (Z p - Z (512 * (p / 512))) by lia.
  apply search_word0_ok.
Qed.
Lemma rs_select0_hit : rs_select0 rs (Z p) = Ok p.
Proof. apply rs_select0_with_hit, search_block0_ok. Qed.
End Zero.

Section One.
Variables (bv : bitvec) (rs : rsvec) (p : N).
Hypothesis Hwf : wf bv.
Hypothesis G : rs_good bv rs.
Hypothesis Hp : p < blen bv.
Let d := bdata bv.
Let O := cnt (bit_at d).
Hypothesis Hb : bit_at d p = true.

Lemma super_ones s : s < lenN (rsupers rs) -> sub (s * 8192) (nthN 0 (rsupers rs) s) = Ok (O (8192 * s)).
Proof.
  intros Hs. rewrite (good_supers _ _ G) by auto. fold d.
  pose proof (cnt_le (zbit d) (8192 * s)). rewrite sub_ok by lia. f_equal.
  unfold O. rewrite cnt_bit_zbit. lia.
Qed.
Lemma super1_cmp s : (O (8192 * s) <=? O p) = (s <=? p / 8192).
Proof.
  unfold O. rewrite cnt_leb by auto.
  destruct (N.leb_spec (8192 * s) p), (N.leb_spec s (p / 8192)); auto; exfalso; dlia.
Qed.

Lemma search_super1_bin_ok fuel sb ub : sb <= ub -> ub < lenN (rsupers rs) -> sb <= p / 8192 ->
  (N.to_nat (ub - sb) < fuel)%nat ->
  exists sb', search_super1_bin fuel rs (O p) sb ub = Ok sb' /\ sb' <= p / 8192.
Proof.
  revert sb ub. induction fuel as [|fuel IH]; intros sb ub H1 H2 H3 H4; [lia|].
  cbn [search_super1_bin]. rewrite sub_ok by lia. cbn [bind].
  destruct (N.ltb_spec 8 (ub - sb)) as [L|L]; [|eauto].
  set (m := sb + (ub - sb) / 2).
  assert (m < ub /\ sb < m) as [? ?] by (unfold m; dlia).
  rewrite (idx_ok 0) by lia. cbn [bind]. rewrite (good_supers _ _ G) by lia. fold d.
  change SUPER_BLOCK_SIZE with 8192.
  pose proof (cnt_le (zbit d) (8192 * m)). rewrite sub_ok by lia. cbn [bind].
  destruct (N.leb_spec ((m + 1) * 8192 - cnt (zbit d) (8192 * m)) (O p)) as [L'|L'].
  - apply IH; try lia.
    assert (E : (O (8192 * m) <=? O p) = true).
    { apply N.leb_le. unfold O at 1. rewrite cnt_bit_zbit. lia. }
    rewrite super1_cmp in E. now apply N.leb_le.
  - apply IH; lia.
Qed.

Lemma search_super1_lin_ok fuel sb : sb <= p / 8192 -> (N.to_nat (p / 8192 - sb) < fuel)%nat ->
  search_super1_lin fuel rs (O p) sb = Ok (p / 8192).
Proof.
  pose proof (n_supers_in bv rs p Hwf G Hp) as Hn.
  revert sb. induction fuel as [|fuel IH]; intros sb H1 H2; [lia|].
  cbn [search_super1_lin]. change SUPER_BLOCK_SIZE with 8192.
  destruct (N.ltb_spec (sb + 1) (lenN (rsupers rs))) as [L|L].
  - rewrite (idx_ok 0) by lia. cbn [bind]. rewrite super_ones by auto. cbn [bind].
    rewrite super1_cmp. destruct (N.leb_spec (sb + 1) (p / 8192)).
    + apply IH; lia.
    + f_equal. lia.
  - cbn [bind]. f_equal. lia.
Qed.

Lemma block_ones b : b < lenN (rblocks rs) -> b / 16 = p / 8192 ->
  sub ((b - 16 * (p / 8192)) * 512) (nthN 0 (rblocks rs) b) = Ok (O (512 * b) - O (8192 * (p / 8192))).
Proof.
  intros Hbl Hbs. rewrite (good_blocks _ _ G) by auto. fold d. rewrite Hbs.
  pose proof (cnt_mono (zbit d) (8192 * (p / 8192)) (512 * b) ltac:(dlia)).
  pose proof (cnt_diff_le (zbit d) (8192 * (p / 8192)) (512 * b) ltac:(dlia)).
  pose proof (cnt_le (zbit d) (8192 * (p / 8192))).
  rewrite sub_ok by dlia. f_equal. unfold O. rewrite !cnt_bit_zbit. dlia.
Qed.
Lemma block1_cmp b : b / 16 = p / 8192 ->
  (O (512 * b) - O (8192 * (p / 8192)) <=? O p - O (8192 * (p / 8192))) = (b <=? p / 512).
Proof.
  intros Hbs.
  assert (E : (O (512 * b) <=? O p) = (512 * b <=? p)) by now apply cnt_leb.
  assert (M : O (8192 * (p / 8192)) <= O p) by (apply cnt_mono; dlia).
  assert (M' : O (8192 * (p / 8192)) <= O (512 * b)) by (apply cnt_mono; dlia).
  destruct (N.leb_spec (O (512 * b)) (O p)) as [A|A], (N.leb_spec (512 * b) p) as [B|B];
    try discriminate;
    destruct (N.leb_spec b (p / 512)) as [C|C]; try (exfalso; dlia).
  - apply N.leb_le. lia.
  - apply N.leb_gt. lia.
Qed.

Lemma search_block1_step_ok bi b : bi / 16 = p / 8192 -> bi <= p / 512 -> p / 512 < bi + 2 * b -> 0 < b ->
  (bi mod 16) + 2 * b <= 16 ->
  exists bi', search_block1_step rs (O p - O (8192 * (p / 8192))) (16 * (p / 8192)) bi b = Ok bi' /\
    bi' / 16 = p / 8192 /\ bi' <= p / 512 /\ p / 512 < bi' + b /\ bi' mod 16 + b <= 16.
Proof.
  intros H1 H2 H3 H4 H5. unfold search_block1_step. pose proof (n_blocks_in bv rs p Hwf G Hp) as Hn.
  change BLOCK_SIZE with 512.
  destruct (N.ltb_spec (bi + b) (lenN (rblocks rs))) as [L|L].
  - rewrite (idx_ok 0) by auto. cbn [bind].
    assert ((bi + b) / 16 = p / 8192) by dlia.
    rewrite sub_ok by dlia. cbn [bind]. rewrite block_ones by auto. cbn [bind].
    rewrite block1_cmp by auto. destruct (N.leb_spec (bi + b) (p / 512)).
    + eexists. split; [reflexivity|]. repeat split; auto; try lia; dlia.
    + eexists. split; [reflexivity|]. repeat split; auto; lia.
  - eexists. split; [reflexivity|]. repeat split; auto; lia.
Qed.

Lemma search_block1_ok :
  search_block1 rs (O p - O (8192 * (p / 8192))) (16 * (p / 8192)) (16 * (p / 8192)) = Ok (p / 512).
Proof.
  unfold search_block1. cbn [forM].
  destruct (search_block1_step_ok (16 * (p / 8192)) 8) as (b1 & -> & A1 & A2 & A3 & A4); try dlia.
  cbn [bind].
  destruct (search_block1_step_ok b1 4) as (b2 & -> & B1 & B2 & B3 & B4); try lia. cbn [bind].
  destruct (search_block1_step_ok b2 2) as (b3 & -> & C1 & C2 & C3 & C4); try lia. cbn [bind].
  destruct (search_block1_step_ok b3 1) as (b4 & -> & D1 & D2 & D3 & D4); try lia. cbn [bind].
  f_equal. lia.
Qed.

Lemma word_testbit q : q < 64 -> forall w, N.testbit (nthN 0 d w) q = bit_at d (64 * w + q).
Proof.
  intros Hq w. unfold bit_at. replace ((64 * w + q) / 64) with w by dlia.
  now replace ((64 * w + q) mod 64) with q by dlia.
Qed.

Lemma pdep_hit1 : pdep_select (O p - O (64 * (p / 64))) (nthN 0 d (p / 64)) = Ok (p mod 64).
Proof.
  assert (p mod 64 < 64) by (apply N.mod_lt; lia).
  apply pdep_select_ok.
  - apply words_nth, Hwf.
  - rewrite word_testbit by auto. now replace (64 * (p / 64) + p mod 64) with p by dlia.
  - assert (E : O p = O (64 * (p / 64)) + cnt (fun i => bit_at d (64 * (p / 64) + i)) (p mod 64)).
    { unfold O. rewrite <- cnt_add. f_equal. dlia. }
    rewrite E. rewrite (cnt_ext _ (fun i => bit_at d (64 * (p / 64) + i))); [lia|].
    intros i Hi. apply word_testbit. lia.
Qed.

Lemma ones_cmp w : w <= p / 64 ->
  (popcount (nthN 0 d w) <=? O p - O (64 * w)) = (w + 1 <=? p / 64).
Proof.
  intros Hw.
  assert (E : (O (64 * w + 64) <=? O p) = (64 * w + 64 <=? p)) by now apply cnt_leb.
  unfold O in E at 1. rewrite cnt_word in E by lia. fold O in E.
  rewrite popcount64 by (apply words_nth, Hwf).
  assert (O (64 * w) <= O p) by (apply cnt_mono; dlia).
  destruct (N.leb_spec (64 * w + 64) p), (N.leb_spec (w + 1) (p / 64)); try (exfalso; dlia).
  - apply N.leb_le in E. apply N.leb_le. lia.
  - apply N.leb_gt in E. apply N.leb_gt. lia.
Qed.

Lemma search_word1_ok :
  search_word_in_block1 rs (O p - O (512 * (p / 512))) (p / 512) = Ok p.
Proof.
  unfold search_word_in_block1. change BLOCK_SIZE with 512.
  replace (p / 512 * 512 / 64) with (8 * (p / 512)) by dlia.
  rewrite (good_data _ _ G). fold d. pose proof (n_data_in bv p Hwf Hp) as Hd. fold d in Hd.
  match goal with |- context [forM_ret (range 0 7) (?rr, 0) ?ff] =>
    destruct (forM_ret_range_inv (S := N * N) (R := N)
      (fun n '(r, c) => 8 * (p / 512) + n <= p / 64 /\ r = O p - O (64 * (8 * (p / 512) + n)) /\ c = 64 * n)
      (fun q => q = p) 0 7 (rr, 0) ff) as [((r' & c') & E & H1 & H2 & H3)|(q & E & H1)] end.
  - lia.
  - repeat split; try dlia. f_equal. f_equal. lia.
  - intros n (r, c) _ Hn (H1 & -> & ->). rewrite (idx_ok 0) by lia. cbn [bind].
    rewrite ones_cmp by auto. destruct (N.leb_spec (8 * (p / 512) + n + 1) (p / 64)) as [L|L].
    + left. assert (M : O (64 * (8 * (p / 512) + n) + 64) <= O p) by (apply cnt_mono; dlia).
      assert (E : O (64 * (8 * (p / 512) + n) + 64) =
        O (64 * (8 * (p / 512) + n)) + popcount (nthN 0 d (8 * (p / 512) + n))).
      { unfold O. rewrite cnt_word by lia.
        now rewrite popcount64 by (apply words_nth, Hwf). }
      rewrite sub_ok by lia. cbn [bind]. eexists. split; [reflexivity|].
      cbn. repeat split; try lia.
      replace (64 * (8 * (p / 512) + (n + 1))) with (64 * (8 * (p / 512) + n) + 64) by lia. lia.
    + right. replace (8 * (p / 512) + n) with (p / 64) by lia. rewrite pdep_hit1. cbn [bind].
      eexists. split; [reflexivity|]. dlia.
  - rewrite E. cbn [bind]. rewrite (idx_ok 0) by lia. cbn [bind]. subst.
    replace (8 * (p / 512) + 7) with (p / 64) by dlia. rewrite pdep_hit1. cbn [bind].
    f_equal. dlia.
  - rewrite E. cbn [bind]. now subst.
Qed.

Lemma rs_select1_with_hit (search : rsvec -> N -> N -> N -> res N) :
  search rs (O p - O (8192 * (p / 8192))) (16 * (p / 8192)) (16 * (p / 8192)) = Ok (p / 512) ->
  rs_select1_with search rs (O p) = Ok p.
Proof.
  intros Hsearch. unfold rs_select1_with. rewrite (good_rank1 _ _ G). fold d O.
  assert (Hr : O p < O (blen bv)) by now apply cnt_lt.
  destruct (N.leb_spec (O (blen bv)) (O p)); [lia|].
  change SELECT_BLOCK_SIZE with 8192.
  destruct (good_sel1 _ _ G (O p) Hr) as (S1 & S2 & S3 & S4). fold d O in S4.
  rewrite (idx_ok (0, 0)) by lia. cbn [bind]. fold (g1 (rsel rs) (O p / 8192)).
  set (sb := g1 (rsel rs) (O p / 8192)) in *.
  assert (Hsb : sb <= p / 8192).
  { apply N.leb_le in S4. unfold O in S4. rewrite cnt_leb in S4 by auto. apply N.leb_le in S4. dlia. }
  pose proof (n_supers_in bv rs p Hwf G Hp) as Hns. pose proof (n_blocks_in bv rs p Hwf G Hp) as Hnb.
  change SUPER_BLOCK_SIZE with 8192. change BLOCK_SIZE with 512. change (8192 / 512) with 16.
  match goal with |- context [bind (if ?c then ?a else ?b) _] => set (go := if c then a else b) end.
  assert (Ego : go = Ok (sb + 1 <=? p / 8192)).
  { unfold go. destruct (N.ltb_spec (sb + 1) (lenN (rsupers rs))).
    - rewrite (idx_ok 0) by auto. cbn [bind]. rewrite super_ones by auto. cbn [bind]. now rewrite super1_cmp.
    - f_equal. symmetry. apply N.leb_gt. lia. }
  rewrite Ego. cbn [bind]. clear go Ego.
  match goal with |- context [bind (if ?c then ?a else ?b) _] => set (ss := if c then a else b) end.
  assert (Ess : ss = Ok (p / 8192)).
  { unfold ss. destruct (N.leb_spec (sb + 1) (p / 8192)); [|f_equal; lia].
    unfold search_super_block1. change SELECT_BLOCK_SIZE with 8192. rewrite (idx_ok (0, 0)) by auto.
    cbn [bind]. fold (g1 (rsel rs) (O p / 8192 + 1)).
    destruct (search_super1_bin_ok (S (N.to_nat (g1 (rsel rs) (O p / 8192 + 1)))) sb (g1 (rsel rs) (O p / 8192 + 1)))
      as (sb' & -> & Hsb'); auto; try lia.
    cbn [bind]. apply search_super1_lin_ok; auto. unfold lenN in Hns. lia. }
  rewrite Ess. cbn [bind]. clear ss Ess.
  rewrite (idx_ok 0) by auto. cbn [bind]. rewrite super_ones by auto. cbn [bind].
  assert (O (8192 * (p / 8192)) <= O p) by (apply cnt_mono; dlia).
  rewrite sub_ok by auto. cbn [bind].
  rewrite (N.mul_comm (p / 8192) 16).
  rewrite Hsearch. cbn [bind].
  rewrite (idx_ok 0) by auto. cbn [bind]. rewrite sub_ok by dlia. cbn [bind].
  rewrite block_ones by (auto; dlia). cbn [bind].
  assert (O (8192 * (p / 8192)) <= O (512 * (p / 512))) by (apply cnt_mono; dlia).
  assert (O (512 * (p / 512)) <= O p) by (apply cnt_mono; dlia).
  rewrite sub_ok by lia. cbn [bind].
  replace (O p - O (8192 * (p / 8192)) - (O (512 * (p / 512)) - O (8192 * (p / 8192))))
    with (O p - O (512 * (p / 512))) by lia.
  apply search_word1_ok.
Qed.
Lemma rs_select1_hit : rs_select1 rs (O p) = Ok p.
Proof. apply rs_select1_with_hit, search_block1_ok. Qed.
End One.

(** ** select in terms of the bits *)
Lemma count_bits_false bv : count false (bits bv) = cnt (zbit (bdata bv)) (blen bv).
Proof.
  unfold bits. rewrite count_bools. apply cnt_ext. intros i _. unfold zbit. now destruct (bit_at _ i).
Qed.
Lemma bits_count (b : bool) bv :
  count b (bits bv) = cnt (if b then bit_at (bdata bv) else zbit (bdata bv)) (blen bv).
Proof. destruct b; [apply count_bits_true|apply count_bits_false]. Qed.
Lemma bits_rank (b : bool) bv pos :
  rank_spec b (bits bv) pos = cnt (if b then bit_at (bdata bv) else zbit (bdata bv)) (N.min pos (blen bv)).
Proof.
  unfold rank_spec. destruct (N.le_gt_cases (blen bv) pos).
  - rewrite takeN_all by (rewrite lenN_bits; lia). rewrite bits_count. now rewrite N.min_r.
  - unfold bits. rewrite takeN_bools by lia. rewrite N.min_l, count_bools by lia.
    destruct b; apply cnt_ext; intros i _; unfold zbit; now destruct (bit_at _ i).
Qed.
Lemma bits_select_hit (b : bool) bv p : p < blen bv -> bit_at (bdata bv) p = b ->
  select_spec b (bits bv) (cnt (if b then bit_at (bdata bv) else zbit (bdata bv)) p) = p.
Proof.
  intros Hp Hb. apply (select_spec_cnt b false).
  - now rewrite lenN_bits.
  - now rewrite nthN_bits.
  - destruct b; apply cnt_ext; intros i Hi; rewrite nthN_bits by lia; unfold zbit;
      now destruct (bit_at _ i).
Qed.

Lemma rs_select0_ok bv rs k : wf bv -> rs_good bv rs ->
  rs_select0 rs k = Ok (select_spec false (bits bv) k).
Proof.
  intros Hwf G. destruct (N.le_gt_cases (count false (bits bv)) k) as [L|L].
  - rewrite select_spec_over, lenN_bits by auto. rewrite count_bits_false in L.
    unfold rs_select0, rs_select0_with. rewrite (good_rank0 _ _ G). destruct (N.leb_spec (cnt (zbit (bdata bv)) (blen bv)) k); [|lia].
    now rewrite (good_len _ _ G).
  - rewrite count_bits_false in L. destruct (cnt_exists _ _ _ L) as (p & Hp & Hb & <-).
    assert (bit_at (bdata bv) p = false) by (unfold zbit in Hb; now destruct (bit_at _ p)).
    pose proof (bits_select_hit false bv p Hp H) as E. cbn in E. rewrite E.
    now apply (rs_select0_hit bv).
Qed.
Lemma rs_select1_ok bv rs k : wf bv -> rs_good bv rs ->
  rs_select1 rs k = Ok (select_spec true (bits bv) k).
Proof.
  intros Hwf G. destruct (N.le_gt_cases (count true (bits bv)) k) as [L|L].
  - rewrite select_spec_over, lenN_bits by auto. rewrite count_bits_true in L.
    unfold rs_select1, rs_select1_with. rewrite (good_rank1 _ _ G). destruct (N.leb_spec (cnt (bit_at (bdata bv)) (blen bv)) k); [|lia].
    now rewrite (good_len _ _ G).
  - rewrite count_bits_true in L. destruct (cnt_exists _ _ _ L) as (p & Hp & Hb & <-).
    pose proof (bits_select_hit true bv p Hp Hb) as E. cbn in E. rewrite E.
    now apply (rs_select1_hit bv).
Qed.
