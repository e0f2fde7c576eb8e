(** * How many iterations the loops of the queries take. *)
From Verif Require Import Base Spec BaseFacts WordFacts BitVecModel BitVecProofs RsVecModel
  PdepProofs RsVecProofs RsVecSelect RsIterProofs CostModel PropsBitVec PropsRsVec.

(** ** select0 *)
Section Zero.
Variables (bv : bitvec) (rs : rsvec) (p : N).
Hypothesis Hwf : wf bv.
Hypothesis G : rs_good bv rs.
Hypothesis Hp : p < blen bv.
Local Notation d := (bdata bv).
Local Notation Z := (cnt (zbit (bdata bv))).
Hypothesis Hb : zbit d p = true.

(** Enough budget for halving: the result is at most 8 short. *)
Lemma bin0_cost k sb ub : sb <= p / 8192 -> p / 8192 <= ub -> ub < lenN (rsupers rs) ->
  ub - sb <= 8 * 2 ^ N.of_nat k ->
  exists sb', search_super0_bin k rs (Z p) sb ub = Ok sb' /\ sb' <= p / 8192 /\ p / 8192 - sb' <= 8.
Proof.
  revert sb ub. induction k as [|k IH]; intros sb ub H1 H2 H3 H4.
  - cbn [search_super0_bin]. rewrite sub_ok by lia. cbn [bind]. change (8 * 2 ^ N.of_nat 0) with 8 in H4.
    destruct (N.ltb_spec 8 (ub - sb)); [lia|]. exists sb. repeat split; auto. lia.
  - cbn [search_super0_bin]. rewrite sub_ok by lia. cbn [bind].
    destruct (N.ltb_spec 8 (ub - sb)) as [L|L]; [|exists sb; repeat split; auto; lia].
    rewrite Nat2N.inj_succ, N.pow_succ_r' in H4. set (P := 2 ^ N.of_nat k) in *.
    assert (sb + (ub - sb) / 2 < ub /\ sb < sb + (ub - sb) / 2) as [? ?] by dlia.
    assert ((ub - sb) / 2 <= 8 * P /\ (ub - sb) - (ub - sb) / 2 <= 8 * P) as [? ?] by (clearbody P; dlia).
    rewrite (idx_ok 0) by lia. cbn [bind]. rewrite (super0_cmp bv rs p) by (auto; lia).
    destruct (N.leb_spec (sb + (ub - sb) / 2) (p / 8192)); apply IH; lia.
Qed.

Lemma lin0_cost k sb : sb <= p / 8192 ->
  search_super0_lin k rs (Z p) sb = if p / 8192 - sb <=? N.of_nat k then Ok (p / 8192) else Diverge.
Proof.
  pose proof (n_supers_in bv rs p Hwf G Hp) as Hn.
  revert sb. induction k as [|k IH]; intros sb H1.
  - cbn [search_super0_lin]. change (N.of_nat 0) with 0.
    destruct (N.ltb_spec (sb + 1) (lenN (rsupers rs))) as [L|L].
    + rewrite (idx_ok 0) by lia. cbn [bind]. rewrite (super0_cmp bv rs p) by (auto; lia).
      destruct (N.leb_spec (sb + 1) (p / 8192)), (N.leb_spec (p / 8192 - sb) 0); try lia; auto. f_equal; lia.
    + cbn [bind]. destruct (N.leb_spec (p / 8192 - sb) 0); [f_equal|]; lia.
  - cbn [search_super0_lin].
    destruct (N.ltb_spec (sb + 1) (lenN (rsupers rs))) as [L|L].
    + rewrite (idx_ok 0) by lia. cbn [bind]. rewrite (super0_cmp bv rs p) by (auto; lia).
      destruct (N.leb_spec (sb + 1) (p / 8192)).
      * rewrite IH by lia. destruct (N.leb_spec (p / 8192 - (sb + 1)) (N.of_nat k)), (N.leb_spec (p / 8192 - sb) (N.of_nat (S k))); auto; lia.
      * destruct (N.leb_spec (p / 8192 - sb) (N.of_nat (S k))); [f_equal|]; lia.
    + cbn [bind]. destruct (N.leb_spec (p / 8192 - sb) (N.of_nat (S k))); [f_equal|]; lia.
Qed.

(** The super-block search decides the outcome. *)
Lemma select0_gen_hit search :
  let sb := g0 (rsel rs) (Z p / 8192) in
  rs_select0_gen search rs (Z p) =
    if sb + 1 <=? p / 8192 then let* s := search rs sb (Z p) in
      (if s =? p / 8192 then Ok p else rs_select0_gen (fun _ _ _ => Ok s) rs (Z p))
    else Ok p.
Proof.
  intros sb. pose proof (rs_select0_hit bv rs p Hwf G Hp Hb) as E. rewrite <- rs_select0_gen_same in E.
  pose proof (search_super_block0_ok bv rs p Hwf G Hp Hb) as Es. fold sb in Es.
  assert (Hr : Z p < Z (blen bv)) by now apply cnt_lt.
  pose proof (n_supers_in bv rs p Hwf G Hp) as Hns.
  destruct (sel0_entry bv rs p G Hp Hb) as [S1 S2]. fold sb in S2.
  unfold rs_select0_gen in *. rewrite (good_rank0 _ _ G) in *.
  destruct (N.leb_spec (Z (blen bv)) (Z p)); [lia|].
  change SELECT_BLOCK_SIZE with 8192 in *.
  rewrite (idx_ok (0, 0)) in * by auto. cbn [bind] in *. fold (g0 (rsel rs) (Z p / 8192)) in *. fold sb in E. fold sb.
  set (go := if sb + 1 <? lenN (rsupers rs) then _ else _) in *.
  assert (Ego : go = Ok (sb + 1 <=? p / 8192)).
  { unfold go. destruct (N.ltb_spec (sb + 1) (lenN (rsupers rs))).
    - rewrite (idx_ok 0) by auto. cbn [bind]. now rewrite (super0_cmp bv rs p) by auto.
    - f_equal. symmetry. apply N.leb_gt. lia. }
  rewrite Ego in *. cbn [bind] in *. clear go Ego.
  destruct (N.leb_spec (sb + 1) (p / 8192)).
  - rewrite Es in E. cbn [bind] in E. destruct (search rs sb (Z p)) as [s| |]; auto. cbn [bind].
    destruct (N.eqb_spec s (p / 8192)) as [->|]; auto.
  - exact E.
Qed.

(** A sample is the super-block of a bit. *)
Lemma samp0 k : 1 <= k -> Z p = 8192 * k - 1 -> g0 (rsel rs) k = p / 8192.
Proof.
  intros K E. assert (Hr : Z p < Z (blen bv)) by now apply cnt_lt.
  pose proof (zc_all bv Hwf) as A.
  destruct (good_samp0 _ _ G k K) as (w & W1 & W2 & W3 & W4); [rewrite A; dlia|]. unfold zc in W3, W4.
  pose proof (wf_in bv w Hwf W1) as W5. rewrite N.min_l in W3 by lia.
  assert (64 * w <= p). { apply N.leb_le. rewrite <- (cnt_leb (zbit d)) by auto. apply N.leb_le. lia. }
  assert (p < 64 * (w + 1)).
  { apply N.lt_nge. intros C. pose proof (cnt_mono (zbit d) (N.min (64 * (w + 1)) (blen bv)) p ltac:(lia)). lia. }
  rewrite W2. dlia.
Qed.
(** The sample of the next select block is not before the bit. *)
Lemma next0 : Z p / 8192 < Z (blen bv) / 8192 -> p / 8192 <= g0 (rsel rs) (Z p / 8192 + 1).
Proof.
  intros L. pose proof (zc_all bv Hwf) as A.
  destruct (good_samp0 _ _ G (Z p / 8192 + 1)) as (w & W1 & W2 & W3 & W4); [lia|rewrite A; lia|]. unfold zc in W3, W4.
  assert (p < 64 * (w + 1)).
  { apply N.lt_nge. intros C. pose proof (cnt_mono (zbit d) (N.min (64 * (w + 1)) (blen bv)) p ltac:(lia)). dlia. }
  rewrite W2. dlia.
Qed.
End Zero.

(** Where the search for the bit of rank [r] starts: the super-block of the last bit of the preceding select block. *)
Definition sample_super (b : bool) (l : list bool) (r : N) : N :=
  if r <? 8192 then 0 else select_spec b l (8192 * (r / 8192) - 1) / 8192.

Lemma hit0 bv r : r < count false (bits bv) ->
  exists p, p < blen bv /\ zbit (bdata bv) p = true /\ cnt (zbit (bdata bv)) p = r /\ select_spec false (bits bv) r = p.
Proof.
  intros L. rewrite count_bits_false in L. destruct (cnt_exists _ _ _ L) as (p & Hp & Hb & <-). exists p. repeat split; auto.
  assert (bit_at (bdata bv) p = false) by (unfold zbit in Hb; now destruct (bit_at _ p)).
  pose proof (bits_select_hit false bv p Hp H) as E. exact E.
Qed.
Lemma hit1 bv r : r < count true (bits bv) ->
  exists p, p < blen bv /\ bit_at (bdata bv) p = true /\ cnt (bit_at (bdata bv)) p = r /\ select_spec true (bits bv) r = p.
Proof.
  intros L. rewrite count_bits_true in L. destruct (cnt_exists _ _ _ L) as (p & Hp & Hb & <-). exists p. repeat split; auto.
  pose proof (bits_select_hit true bv p Hp Hb) as E. exact E.
Qed.

Lemma sample_super0_g bv rs r : wf bv -> rs_good bv rs -> r < count false (bits bv) ->
  g0 (rsel rs) (r / 8192) = sample_super false (bits bv) r.
Proof.
  intros Hwf G Hr. unfold sample_super. destruct (N.ltb_spec r 8192) as [L|L].
  - rewrite N.div_small by auto. apply (good_first _ _ G).
  - assert (1 <= r / 8192) by dlia. destruct (hit0 bv (8192 * (r / 8192) - 1)) as (q & Q1 & Q2 & Q3 & ->); [dlia|].
    apply (samp0 bv rs q); auto.
Qed.

(** ** C90 *)
Lemma select0_cost bv rs r : wf bv -> rs_good bv rs -> r < count false (bits bv) ->
  let p := select_spec false (bits bv) r in
  (r / 8192 < count false (bits bv) / 8192 ->
     rs_select0_cut (N.to_nat (N.log2_up (lenN (bits bv) / 8192 + 1))) 8 rs r = Ok p) /\
  (r / 8192 = count false (bits bv) / 8192 -> forall kb kl,
     rs_select0_cut kb kl rs r = if p / 8192 - sample_super false (bits bv) r <=? N.of_nat kl then Ok p else Diverge).
Proof.
  intros Hwf G Hr p. pose proof (sample_super0_g bv rs r Hwf G Hr) as Es.
  pose proof Hr as Hr'. rewrite count_bits_false in Hr' |- *.
  destruct (hit0 bv r Hr) as (p' & Hp & Hb & Er & Ep). subst p. rewrite Ep. rename p' into p. subst r.
  pose proof (n_supers_in bv rs p Hwf G Hp) as Hns.
  destruct (good_sel0 _ _ G _ Hr') as (S1 & S2 & S3 & S4). destruct (sel0_entry bv rs p G Hp Hb) as [_ S5].
  split; [intros Hl|intros Hl kb kl]; unfold rs_select0_cut; rewrite (select0_gen_hit bv rs p Hwf G Hp Hb);
    unfold search_super_block0_cut; change SELECT_BLOCK_SIZE with 8192; rewrite (idx_ok (0, 0)) by auto; cbn [bind];
    fold (g0 (rsel rs) (cnt (zbit (bdata bv)) p / 8192 + 1)).
  - destruct (N.leb_spec (g0 (rsel rs) (cnt (zbit (bdata bv)) p / 8192) + 1) (p / 8192)); auto.
    destruct (bin0_cost bv rs p G Hp Hb (N.to_nat (N.log2_up (lenN (bits bv) / 8192 + 1)))
      (g0 (rsel rs) (cnt (zbit (bdata bv)) p / 8192)) (g0 (rsel rs) (cnt (zbit (bdata bv)) p / 8192 + 1))) as (sb' & -> & B1 & B2); auto.
    + now apply next0.
    + rewrite N2Nat.id, lenN_bits. pose proof (good_supers_len _ _ G) as L. destruct Hwf as [L' _]. rewrite L' in L.
      assert (g0 (rsel rs) (cnt (zbit (bdata bv)) p / 8192 + 1) <= blen bv / 8192) by dlia.
      assert (blen bv / 8192 + 1 <= 2 ^ N.log2_up (blen bv / 8192 + 1)); [|lia].
      destruct (N.eq_dec (blen bv / 8192) 0) as [->|]; [cbn; lia|]. apply N.log2_up_spec. lia.
    + cbn [bind]. rewrite (lin0_cost bv rs p Hwf G Hp Hb) by auto.
      destruct (N.leb_spec (p / 8192 - sb') (N.of_nat 8)); [|lia]. cbn [bind]. now rewrite N.eqb_refl.
  - pose proof (good_dummy0 _ _ G) as D. rewrite (zc_all bv Hwf) in D. rewrite <- Hl in D.
    rewrite D, <- Es. set (sb := g0 (rsel rs) _) in *.
    destruct (N.leb_spec (sb + 1) (p / 8192)).
    + assert (B : search_super0_bin kb rs (cnt (zbit (bdata bv)) p) sb sb = Ok sb).
      { destruct kb; cbn [search_super0_bin]; rewrite sub_ok by lia; cbn [bind]; now rewrite N.sub_diag. }
      rewrite B. cbn [bind]. rewrite (lin0_cost bv rs p Hwf G Hp Hb) by auto.
      destruct (p / 8192 - sb <=? N.of_nat kl); auto. cbn [bind]. now rewrite N.eqb_refl.
    + destruct (N.leb_spec (p / 8192 - sb) (N.of_nat kl)); auto. lia.
Qed.
Theorem C90_select0 bv rs r : wf bv -> rs_from_bit_vec bv = Ok rs -> r < count false (bits bv) ->
  let p := select_spec false (bits bv) r in
  (r / 8192 < count false (bits bv) / 8192 ->
     rs_select0_cut (N.to_nat (N.log2_up (lenN (bits bv) / 8192 + 1))) 8 rs r = Ok p) /\
  (r / 8192 = count false (bits bv) / 8192 -> forall kb kl,
     rs_select0_cut kb kl rs r = if p / 8192 - sample_super false (bits bv) r <=? N.of_nat kl then Ok p else Diverge).
Proof. intros Hwf E. apply select0_cost; auto. now apply built. Qed.

(** ** select1 *)
Section One.
Variables (bv : bitvec) (rs : rsvec) (p : N).
Hypothesis Hwf : wf bv.
Hypothesis G : rs_good bv rs.
Hypothesis Hp : p < blen bv.
Local Notation d := (bdata bv).
Local Notation O := (cnt (bit_at (bdata bv))).
Hypothesis Hb : bit_at d p = true.

Lemma lin1_cost k sb : sb <= p / 8192 ->
  search_super1_lin k rs (O p) sb = if p / 8192 - sb <=? N.of_nat k then Ok (p / 8192) else Diverge.
Proof.
  pose proof (n_supers_in bv rs p Hwf G Hp) as Hn.
  revert sb. induction k as [|k IH]; intros sb H1.
  - cbn [search_super1_lin]. change (N.of_nat 0) with 0. change SUPER_BLOCK_SIZE with 8192.
    destruct (N.ltb_spec (sb + 1) (lenN (rsupers rs))) as [L|L].
    + rewrite (idx_ok 0) by lia. cbn [bind]. rewrite (super_ones bv rs p) by auto. cbn [bind]. rewrite (super1_cmp bv p) by auto.
      destruct (N.leb_spec (sb + 1) (p / 8192)), (N.leb_spec (p / 8192 - sb) 0); try lia; auto. f_equal; lia.
    + cbn [bind]. destruct (N.leb_spec (p / 8192 - sb) 0); [f_equal|]; lia.
  - cbn [search_super1_lin]. change SUPER_BLOCK_SIZE with 8192.
    destruct (N.ltb_spec (sb + 1) (lenN (rsupers rs))) as [L|L].
    + rewrite (idx_ok 0) by lia. cbn [bind]. rewrite (super_ones bv rs p) by auto. cbn [bind]. rewrite (super1_cmp bv p) by auto.
      destruct (N.leb_spec (sb + 1) (p / 8192)).
      * rewrite IH by lia. destruct (N.leb_spec (p / 8192 - (sb + 1)) (N.of_nat k)), (N.leb_spec (p / 8192 - sb) (N.of_nat (S k))); auto; lia.
      * destruct (N.leb_spec (p / 8192 - sb) (N.of_nat (S k))); [f_equal|]; lia.
    + cbn [bind]. destruct (N.leb_spec (p / 8192 - sb) (N.of_nat (S k))); [f_equal|]; lia.
Qed.

Lemma select1_gen_hit search :
  let sb := g1 (rsel rs) (O p / 8192) in
  rs_select1_gen search rs (O p) =
    if sb + 1 <=? p / 8192 then let* s := search rs sb (O p) in
      (if s =? p / 8192 then Ok p else rs_select1_gen (fun _ _ _ => Ok s) rs (O p))
    else Ok p.
Proof.
  intros sb. pose proof (rs_select1_hit bv rs p Hwf G Hp Hb) as E. rewrite <- rs_select1_gen_same in E.
  pose proof (search_super_block1_ok bv rs p Hwf G Hp Hb) as Es. fold sb in Es.
  assert (Hr : O p < O (blen bv)) by now apply cnt_lt.
  pose proof (n_supers_in bv rs p Hwf G Hp) as Hns.
  destruct (sel1_entry bv rs p G Hp Hb) as [S1 S2]. fold sb in S2.
  unfold rs_select1_gen in *. rewrite (good_rank1 _ _ G) in *.
  destruct (N.leb_spec (O (blen bv)) (O p)); [lia|].
  change SELECT_BLOCK_SIZE with 8192 in *. change SUPER_BLOCK_SIZE with 8192 in *.
  rewrite (idx_ok (0, 0)) in * by auto. cbn [bind] in *. fold (g1 (rsel rs) (O p / 8192)) in *. fold sb in E. fold sb.
  set (go := if sb + 1 <? lenN (rsupers rs) then _ else _) in *.
  assert (Ego : go = Ok (sb + 1 <=? p / 8192)).
  { unfold go. destruct (N.ltb_spec (sb + 1) (lenN (rsupers rs))).
    - rewrite (idx_ok 0) by auto. cbn [bind]. rewrite (super_ones bv rs p) by auto. cbn [bind]. now rewrite (super1_cmp bv p) by auto.
    - f_equal. symmetry. apply N.leb_gt. lia. }
  rewrite Ego in *. cbn [bind] in *. clear go Ego.
  destruct (N.leb_spec (sb + 1) (p / 8192)).
  - rewrite Es in E. cbn [bind] in E. destruct (search rs sb (O p)) as [s| |]; auto. cbn [bind].
    destruct (N.eqb_spec s (p / 8192)) as [->|]; auto.
  - exact E.
Qed.

Lemma samp1 k : 1 <= k -> O p = 8192 * k - 1 -> g1 (rsel rs) k = p / 8192.
Proof.
  intros K E. assert (Hr : O p < O (blen bv)) by now apply cnt_lt.
  pose proof (zc_all bv Hwf) as A.
  assert (B : O (blen bv) <= oc bv (lenN d)).
  { unfold oc. rewrite A, cnt_bit_zbit. destruct Hwf as [-> _]. dlia. }
  destruct (good_samp1 _ _ G k K) as (w & W1 & W2 & W3 & W4); [dlia|].
  pose proof (wf_in bv w Hwf W1) as W5. rewrite oc_in in W3 by lia.
  assert (64 * w <= p). { apply N.leb_le. rewrite <- (cnt_leb (bit_at d)) by auto. apply N.leb_le. lia. }
  assert (p < 64 * (w + 1)).
  { apply N.lt_nge. intros C. rewrite oc_in in W4 by lia. pose proof (cnt_mono (bit_at d) (64 * (w + 1)) p ltac:(lia)). lia. }
  rewrite W2. dlia.
Qed.
End One.

Lemma sample_super1_g bv rs r : wf bv -> rs_good bv rs -> r < count true (bits bv) ->
  g1 (rsel rs) (r / 8192) = sample_super true (bits bv) r.
Proof.
  intros Hwf G Hr. unfold sample_super. destruct (N.ltb_spec r 8192) as [L|L].
  - rewrite N.div_small by auto. apply (good_first _ _ G).
  - assert (1 <= r / 8192) by dlia. destruct (hit1 bv (8192 * (r / 8192) - 1)) as (q & Q1 & Q2 & Q3 & ->); [dlia|].
    apply (samp1 bv rs q); auto.
Qed.

(** The comparison of the binary search never holds. *)
Lemma bin1_idle bv rs r k ub : wf bv -> rs_good bv rs -> r < count true (bits bv) ->
  let sb := g1 (rsel rs) (r / 8192) in
  sb <= ub -> ub < lenN (rsupers rs) -> ub - sb <= 8 * 2 ^ N.of_nat k ->
  search_super1_bin k rs r sb ub = Ok sb.
Proof.
  intros Hwf G Hr sb. 
  assert (C : forall m, sb < m -> r < 8192 + cnt (bit_at (bdata bv)) (8192 * m)).
  { intros m Hm. destruct (N.ltb_spec r 8192) as [L|L]; [lia|].
    assert (1 <= r / 8192) by dlia. destruct (hit1 bv (8192 * (r / 8192) - 1)) as (q & Q1 & Q2 & Q3 & _); [dlia|].
    pose proof (samp1 bv rs q Hwf G Q1 Q2 (r / 8192) ltac:(auto) Q3) as S. fold sb in S.
    pose proof (cnt_mono (bit_at (bdata bv)) (q + 1) (8192 * m) ltac:(dlia)) as M. rewrite cnt_succ, Q2, Q3 in M. dlia. }
  clearbody sb. revert ub. induction k as [|k IH]; intros ub H1 H2 H4.
  - cbn [search_super1_bin]. rewrite sub_ok by lia. cbn [bind]. change (8 * 2 ^ N.of_nat 0) with 8 in H4.
    destruct (N.ltb_spec 8 (ub - sb)); [lia|]. reflexivity.
  - cbn [search_super1_bin]. rewrite sub_ok by lia. cbn [bind].
    destruct (N.ltb_spec 8 (ub - sb)) as [L|L]; [|reflexivity].
    rewrite Nat2N.inj_succ, N.pow_succ_r' in H4. set (P := 2 ^ N.of_nat k) in *.
    set (m := sb + (ub - sb) / 2).
    assert (m < ub /\ sb < m) as [? ?] by (unfold m; dlia).
    assert (m - sb <= 8 * P) by (clearbody P; unfold m; dlia).
    rewrite (idx_ok 0) by lia. cbn [bind]. rewrite (good_supers _ _ G) by lia.
    change SUPER_BLOCK_SIZE with 8192.
    pose proof (cnt_le (zbit (bdata bv)) (8192 * m)). rewrite sub_ok by lia. cbn [bind].
    specialize (C m ltac:(auto)). rewrite cnt_bit_zbit in C.
    destruct (N.leb_spec ((m + 1) * 8192 - cnt (zbit (bdata bv)) (8192 * m)) r) as [L'|L']; [lia|].
    apply IH; lia.
Qed.

Lemma supers_log bv rs ub k : wf bv -> rs_good bv rs -> ub < lenN (rsupers rs) ->
  N.log2_up (lenN (bits bv) / 8192 + 1) <= N.of_nat k -> ub <= 8 * 2 ^ N.of_nat k.
Proof.
  intros Hwf G H K. rewrite lenN_bits in K. pose proof (good_supers_len _ _ G) as L. destruct Hwf as [L' _]. rewrite L' in L.
  assert (ub <= blen bv / 8192) by dlia.
  assert (2 ^ N.log2_up (blen bv / 8192 + 1) <= 2 ^ N.of_nat k) by (apply N.pow_le_mono_r; lia).
  assert (blen bv / 8192 + 1 <= 2 ^ N.log2_up (blen bv / 8192 + 1)); [|lia].
  destruct (N.eq_dec (blen bv / 8192) 0) as [->|]; [cbn; lia|]. apply N.log2_up_spec. lia.
Qed.

(** A larger budget gives the same result. *)
Lemma bin1_mono a rs r : forall b sb ub v, (a <= b)%nat ->
  search_super1_bin a rs r sb ub = Ok v -> search_super1_bin b rs r sb ub = Ok v.
Proof.
  induction a as [|a IH]; intros b sb ub v H E; destruct b as [|b]; try lia; auto; cbn [search_super1_bin] in *;
    destruct (sub ub sb) as [dd| |]; try discriminate; cbn [bind] in *; destruct (8 <? dd); try discriminate; auto.
  destruct (idx (rsupers rs) (sb + dd / 2)) as [z| |]; try discriminate; cbn [bind] in *.
  destruct (sub _ z) as [o| |]; try discriminate; cbn [bind] in *.
  destruct (o <=? r); apply IH; auto; lia.
Qed.
Lemma select1_cut_mono a b kl rs r v : (a <= b)%nat -> rs_select1_cut a kl rs r = Ok v -> rs_select1_cut b kl rs r = Ok v.
Proof.
  intros H. unfold rs_select1_cut, rs_select1_gen. destruct (rrank1 rs <=? r); auto.
  destruct (idx (rsel rs) (r / SELECT_BLOCK_SIZE)) as [e| |]; try discriminate. cbn [bind].
  match goal with |- bind ?x _ = _ -> _ => destruct x as [go| |]; try discriminate end. cbn [bind].
  destruct go; auto. unfold search_super_block1_cut.
  destruct (idx (rsel rs) (r / SELECT_BLOCK_SIZE + 1)) as [e'| |]; try discriminate. cbn [bind].
  destruct (search_super1_bin a rs r (snd e) (snd e')) as [sb| |] eqn:E; try discriminate.
  now rewrite (bin1_mono a rs r b (snd e) (snd e') sb H E).
Qed.

(** ** C91 *)
Theorem C91_select1 bv rs r kb kl : wf bv -> rs_from_bit_vec bv = Ok rs -> r < count true (bits bv) ->
  N.log2_up (lenN (bits bv) / 8192 + 1) <= N.of_nat kb ->
  let p := select_spec true (bits bv) r in
  rs_select1_cut kb kl rs r = if p / 8192 - sample_super true (bits bv) r <=? N.of_nat kl then Ok p else Diverge.
Proof.
  intros Hwf E Hr Hkb p. pose proof (built bv rs Hwf E) as G. pose proof (sample_super1_g bv rs r Hwf G Hr) as Es.
  pose proof Hr as Hr'. rewrite count_bits_true in Hr'.
  destruct (good_sel1 _ _ G _ Hr') as (S1 & S2 & S3 & S4).
  pose proof (bin1_idle bv rs r kb (g1 (rsel rs) (r / 8192 + 1)) Hwf G Hr S2 S3) as B.
  pose proof (supers_log bv rs _ kb Hwf G S3 Hkb) as Hl. specialize (B ltac:(lia)).
  destruct (hit1 bv r Hr) as (p' & Hp & Hb & Er & Ep). subst p. rewrite Ep. rename p' into p. subst r.
  destruct (sel1_entry bv rs p G Hp Hb) as [_ S5].
  unfold rs_select1_cut. rewrite (select1_gen_hit bv rs p Hwf G Hp Hb).
  unfold search_super_block1_cut. change SELECT_BLOCK_SIZE with 8192. rewrite (idx_ok (0, 0)) by auto. cbn [bind].
  fold (g1 (rsel rs) (cnt (bit_at (bdata bv)) p / 8192 + 1)). rewrite B. cbn [bind].
  rewrite (lin1_cost bv rs p Hwf G Hp Hb) by auto. rewrite <- Es. set (sb := g1 (rsel rs) (cnt (bit_at (bdata bv)) p / 8192)) in *.
  destruct (N.leb_spec (sb + 1) (p / 8192)).
  - destruct (p / 8192 - sb <=? N.of_nat kl); auto. cbn [bind]. now rewrite N.eqb_refl.
  - destruct (N.leb_spec (p / 8192 - sb) (N.of_nat kl)); auto. lia.
Qed.

(** A family of vectors: [m] super-blocks of words [w0], then [j] words [w1]. *)
Definition step_vec (w0 w1 : N) (m : N) (j : nat) : bitvec :=
  mkbv (replicate (128 * m) w0 ++ repeat w1 j) (64 * (128 * m + N.of_nat j)).
Lemma step_vec_wf w0 w1 m j : w0 < 2 ^ 64 -> w1 < 2 ^ 64 -> wf (step_vec w0 w1 m j).
Proof.
  intros H0 H1. split; cbn [blen bdata step_vec].
  - rewrite lenN_app, lenN_replicate, lenN_repeat. dlia.
  - apply Forall_app. split; apply Forall_forall; intros w Hw; apply repeat_spec in Hw; now subst.
Qed.
Lemma nthN_repeat0 {A} (dd a : A) n i : i < N.of_nat n -> nthN dd (repeat a n) i = a.
Proof. intros. unfold nthN. apply (repeat_spec n), nth_In. rewrite repeat_length. lia. Qed.
Lemma step_vec_bit w0 w1 m j i : i < 64 * (128 * m + N.of_nat j) ->
  bit_at (bdata (step_vec w0 w1 m j)) i = N.testbit (if i <? 8192 * m then w0 else w1) (i mod 64).
Proof.
  intros H. unfold bit_at. cbn [bdata step_vec]. rewrite nthN_app, lenN_replicate.
  destruct (N.ltb_spec (i / 64) (128 * m)), (N.ltb_spec i (8192 * m)); try (exfalso; dlia).
  - unfold replicate. rewrite nthN_repeat0 by lia. reflexivity.
  - rewrite nthN_repeat0 by dlia. reflexivity.
Qed.
Lemma ones64 i : N.testbit (2 ^ 64 - 1) (i mod 64) = true.
Proof. rewrite N.sub_1_r, <- N.ones_equiv. apply N.ones_spec_low. dlia. Qed.

(** More than any multiple of the logarithm. *)
Lemma pow_beats c : c * (c + 23) < 2 ^ (c + 8).
Proof.
  induction c as [|c IH] using N_ind1; [cbn; lia|].
  replace (c + 1 + 8) with (N.succ (c + 8)) by lia. rewrite N.pow_succ_r'. destruct (N.le_gt_cases 2 c) as [L|L]; [nia|].
  assert (c = 0 \/ c = 1) as [->| ->] by lia; vm_compute; reflexivity.
Qed.

Lemma log_lt c : let e := c + 8 in c * (N.log2 (64 * (128 * 2 ^ e + 128)) + 1) < 2 ^ e.
Proof.
  intros e. assert (N.log2 (64 * (128 * 2 ^ e + 128)) < e + 15).
  { assert (2 ^ e <> 0) by (apply N.pow_nonzero; lia).
    apply N.log2_lt_pow2; [lia|]. rewrite N.pow_add_r. change (2 ^ 15) with 32768. lia. }
  pose proof (pow_beats c) as P. fold e in P. unfold e in *. nia.
Qed.
Lemma log_lt1 c : let e := c + 8 in c * (N.log2 (64 * (128 * 2 ^ e + 1)) + 1) < 2 ^ e.
Proof.
  intros e. pose proof (log_lt c) as L. cbn zeta in L. fold e in L.
  pose proof (N.log2_le_mono (64 * (128 * 2 ^ e + 1)) (64 * (128 * 2 ^ e + 128)) ltac:(lia)). nia.
Qed.

Theorem C90_refuted : ~ exists c, forall bv rs r, wf bv -> rs_from_bit_vec bv = Ok rs -> r < count false (bits bv) ->
  let k := N.to_nat (c * (N.log2 (lenN (bits bv)) + 1)) in rs_select0_cut k k rs r = Ok (select_spec false (bits bv) r).
Proof.
  intros (c & H). set (e := c + 8). set (m := 2 ^ e). set (bv := step_vec (2 ^ 64 - 1) 0 m 1).
  assert (Hwf : wf bv) by (apply step_vec_wf; reflexivity).
  assert (Hm : m <> 0) by (apply N.pow_nonzero; lia).
  assert (Bl : forall i, i < 8192 * m -> bit_at (bdata bv) i = true).
  { intros i Hi. unfold bv. rewrite step_vec_bit by lia. destruct (N.ltb_spec i (8192 * m)); [apply ones64|lia]. }
  assert (Bh : forall i, 8192 * m <= i -> i < 8192 * m + 64 -> bit_at (bdata bv) i = false).
  { intros i Hi Hi'. unfold bv. rewrite step_vec_bit by lia. destruct (N.ltb_spec i (8192 * m)); [lia|apply N.bits_0]. }
  assert (Z0 : cnt (zbit (bdata bv)) (8192 * m) = 0).
  { rewrite (cnt_ext _ (fun _ => false)); [apply cnt_false|]. intros i Hi. unfold zbit. now rewrite Bl. }
  assert (Ln : blen bv = 8192 * m + 64) by (unfold bv; cbn [blen step_vec]; lia).
  assert (Zn : count false (bits bv) = 64).
  { rewrite count_bits_false, Ln, cnt_add, Z0. rewrite (cnt_ext _ (fun _ => true)); [now rewrite cnt_true|].
    intros i Hi. unfold zbit. now rewrite Bh by lia. }
  destruct (rs_from_bit_vec_ok bv Hwf) as (rs & E & _).
  assert (Sel : select_spec false (bits bv) 0 = 8192 * m).
  { pose proof (bits_select_hit false bv (8192 * m) ltac:(lia) (Bh (8192 * m) ltac:(lia) ltac:(lia))) as S. cbv iota in S. now rewrite Z0 in S. }
  assert (H0 : 0 < count false (bits bv)) by (rewrite Zn; lia).
  specialize (H bv rs 0 Hwf E H0). cbn zeta in H.
  destruct (C90_select0 bv rs 0 Hwf E H0) as [_ C]. rewrite C in H by (rewrite Zn; reflexivity). clear C.
  rewrite Sel in H. unfold sample_super in H. change (0 <? 8192) with true in H. cbv iota in H.
  rewrite N2Nat.id, lenN_bits in H. replace (8192 * m / 8192 - 0) with m in H by (rewrite N.mul_comm, N.div_mul by lia; lia).
  destruct (N.leb_spec m (c * (N.log2 (blen bv) + 1))) as [L|L]; [|discriminate].
  pose proof (log_lt1 c) as P. cbn zeta in P. fold e m in P. rewrite Ln in L.
  replace (64 * (128 * m + 1)) with (8192 * m + 64) in P by lia. lia.
Qed.

(** Even for a rank that is not in the last select block. *)
Theorem C91_refuted : ~ exists c, forall bv rs r, wf bv -> rs_from_bit_vec bv = Ok rs ->
  r / 8192 < count true (bits bv) / 8192 ->
  let k := N.to_nat (c * (N.log2 (lenN (bits bv)) + 1)) in rs_select1_cut k k rs r = Ok (select_spec true (bits bv) r).
Proof.
  intros (c & H). set (e := c + 8). set (m := 2 ^ e). set (bv := step_vec 0 (2 ^ 64 - 1) m 128).
  assert (Hwf : wf bv) by (apply step_vec_wf; reflexivity).
  assert (Hm : m <> 0) by (apply N.pow_nonzero; lia).
  assert (Bl : forall i, i < 8192 * m -> bit_at (bdata bv) i = false).
  { intros i Hi. unfold bv. rewrite step_vec_bit by lia. destruct (N.ltb_spec i (8192 * m)); [apply N.bits_0|lia]. }
  assert (Bh : forall i, 8192 * m <= i -> i < 8192 * m + 8192 -> bit_at (bdata bv) i = true).
  { intros i Hi Hi'. unfold bv. rewrite step_vec_bit by lia. destruct (N.ltb_spec i (8192 * m)); [lia|apply ones64]. }
  assert (Z0 : cnt (bit_at (bdata bv)) (8192 * m) = 0).
  { rewrite (cnt_ext _ (fun _ => false)); [apply cnt_false|]. intros i Hi. now rewrite Bl. }
  assert (Ln : blen bv = 8192 * m + 8192) by (unfold bv; cbn [blen step_vec]; lia).
  assert (Zn : count true (bits bv) = 8192).
  { rewrite count_bits_true, Ln, cnt_add, Z0. rewrite (cnt_ext _ (fun _ => true)); [now rewrite cnt_true|].
    intros i Hi. now rewrite Bh by lia. }
  destruct (rs_from_bit_vec_ok bv Hwf) as (rs & E & _).
  assert (Sel : select_spec true (bits bv) 0 = 8192 * m).
  { pose proof (bits_select_hit true bv (8192 * m) ltac:(lia) (Bh (8192 * m) ltac:(lia) ltac:(lia))) as S. cbv iota in S. now rewrite Z0 in S. }
  assert (H0 : 0 < count true (bits bv)) by (rewrite Zn; lia).
  specialize (H bv rs 0 Hwf E ltac:(rewrite Zn; reflexivity)). cbn zeta in H.
  set (k := N.to_nat _) in H.
  pose proof (C91_select1 bv rs 0 (Nat.max k (N.to_nat (N.log2_up (lenN (bits bv) / 8192 + 1)))) k Hwf E H0 ltac:(lia)) as C.
  apply (select1_cut_mono k (Nat.max k (N.to_nat (N.log2_up (lenN (bits bv) / 8192 + 1)))) k) in H; [|lia].
  rewrite C in H. clear C.
  rewrite Sel in H. unfold sample_super in H. change (0 <? 8192) with true in H. cbv iota in H.
  unfold k in H. rewrite N2Nat.id, lenN_bits in H. replace (8192 * m / 8192 - 0) with m in H by (rewrite N.mul_comm, N.div_mul by lia; lia).
  destruct (N.leb_spec m (c * (N.log2 (blen bv) + 1))) as [L|L]; [|discriminate].
  pose proof (log_lt c) as P. cbn zeta in P. fold e m in P. rewrite Ln in L.
  replace (64 * (128 * m + 128)) with (8192 * m + 8192) in P by lia. lia.
Qed.

(** Two super-blocks of zeros and a word of ones. *)
Example C90_ex : let bv := step_vec 0 (2 ^ 64 - 1) 2 1 in
  match rs_from_bit_vec bv with
  | Ok rs => rrank0 rs = 16384 /\ rs_select0_cut 2 8 rs 8191 = Ok 8191 /\ rs_select0_cut 2 0 rs 8192 = Diverge /\
      rs_select0_cut 2 1 rs 8193 = Ok 8193
  | _ => False
  end.
Proof. vm_compute. auto. Qed.
(** Two super-blocks of zeros: the first one is two steps away, with any budget for the binary search. *)
Example C91_ex : let bv := step_vec 0 (2 ^ 64 - 1) 2 1 in
  match rs_from_bit_vec bv with
  | Ok rs => rrank1 rs = 64 /\ rs_select1_cut 9 1 rs 0 = Diverge /\ rs_select1_cut 2 2 rs 0 = Ok 16384 /\
      rs_select1_cut 2 2 rs 63 = Ok 16447
  | _ => False
  end.
Proof. vm_compute. auto. Qed.
