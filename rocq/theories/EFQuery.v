(** * Proofs about the Elias-Fano queries. *)
From Verif Require Import Base Spec BaseFacts WordFacts BitVecModel BitVecProofs BitVecProofs2
  RsVecModel RsVecProofs RsVecSelect RsEqProofs EFModel EFProofs.

Section Query.
Variables (data : list N) (w : N) (e : ef).
Hypothesis Hsorted : nondecreasing data.
Hypothesis Hwords : Forall (fun x => x < U64) data.
Hypothesis Hne : 0 < lenN data.
Hypothesis Hw : w < 64.
Hypothesis G : ef_good data w e.
Local Notation n := (lenN data).
Local Notation D := (nthN 0 data).
Local Notation W := (eW data).
Local Notation U := (eU data w).
Local Notation L := (eL data w).
Local Notation Pos := (ePos data w).
Local Notation C := (eC data w).
Local Notation B := (U (n - 1)).
Local Notation m := (2 + n + B).

Lemma up_bits : exists bv, wf bv /\ rs_good bv (ef_upper e) /\ blen bv = m /\
  (forall p, p < m -> bit_at (bdata bv) p = true <-> exists k, k < n /\ Pos k = p) /\
  (forall p, p <= m -> cnt (bit_at (bdata bv)) p = cnt (fun k => Pos k <? p) n).
Proof using Hsorted Hwords Hne Hw G.
  destruct (eg_up _ _ _ G) as (bv & H1 & H2 & H3 & H4). exists bv. repeat (split; [auto|]).
  apply cnt_image; auto. intros i j Hij Hj. now apply ePos_mono.
Qed.

Lemma sel1 k : k < n -> rs_select1 (ef_upper e) k = Ok (Pos k).
Proof using Hsorted Hwords Hne Hw G.
  intros Hk. destruct up_bits as (bv & H1 & H2 & H3 & H4 & H5). rewrite (rs_select1_ok bv) by auto.
  pose proof (eU_mono data w Hsorted Hwords Hne Hw k (n - 1) ltac:(lia) ltac:(lia)).
  assert (Hp : Pos k < m) by (unfold ePos; lia).
  assert (Hb : bit_at (bdata bv) (Pos k) = true) by (apply H4; eauto).
  pose proof (bits_select_hit true bv (Pos k) ltac:(lia) Hb) as E. cbn [Bool.eqb] in E.
  rewrite H5 in E by lia. rewrite (cnt_ext _ (fun j => j <? k)), cnt_below in E; [now rewrite E|lia|].
  intros i Hi. destruct (N.lt_trichotomy i k) as [T|[T|T]].
  - pose proof (ePos_mono data w Hsorted Hwords Hne Hw i k T Hk). lia.
  - subst. lia.
  - pose proof (ePos_mono data w Hsorted Hwords Hne Hw k i T Hi). lia.
Qed.

Lemma pos_z j k : k < n -> (Pos k <? j + C j) = (k <? C j) /\ Pos k <> j + C j.
Proof using Hsorted Hwords Hne Hw G.
  intros Hk. pose proof (eC_lt data w Hsorted Hwords Hne Hw j k Hk). unfold ePos. lia.
Qed.

Lemma sel0 j : j <= B + 1 -> rs_select0 (ef_upper e) j = Ok (j + C j).
Proof using Hsorted Hwords Hne Hw G.
  intros Hj. destruct up_bits as (bv & H1 & H2 & H3 & H4 & H5). rewrite (rs_select0_ok bv) by auto.
  pose proof (eC_le data w Hsorted Hwords Hne Hw j) as Hc.
  assert (Hb : bit_at (bdata bv) (j + C j) = false).
  { destruct (bit_at (bdata bv) (j + C j)) eqn:Eb; auto. apply H4 in Eb; [|lia]. destruct Eb as (k & Hk & Ek).
    destruct (pos_z j k Hk). congruence. }
  pose proof (bits_select_hit false bv (j + C j) ltac:(lia) Hb) as E. cbn in E.
  rewrite cnt_zbit, H5 in E by lia. rewrite (cnt_ext _ (fun k => k <? C j)), cnt_below in E; auto.
  - replace (j + C j - C j) with j in E by lia. now rewrite E.
  - intros i Hi. now apply pos_z.
Qed.

(** Elements of block [j] are the indices from [C j] to [C (j + 1)]. *)
Lemma in_block j k : C j <= k -> k < C (j + 1) -> k < n /\ U k = j.
Proof using Hsorted Hwords Hne Hw G.
  intros H1 H2. pose proof (eC_le data w Hsorted Hwords Hne Hw (j + 1)). assert (Hk : k < n) by lia.
  pose proof (eC_lt data w Hsorted Hwords Hne Hw j k Hk).
  pose proof (eC_lt data w Hsorted Hwords Hne Hw (j + 1) k Hk). lia.
Qed.

Lemma block_bit j s : j <= B -> s <= C (j + 1) - C j + 1 ->
  rs_get_unchecked (ef_upper e) (j + C j + s) = Ok (bitN ((1 <=? s) && (s <=? C (j + 1) - C j))).
Proof using Hsorted Hwords Hne Hw G.
  intros Hj Hs. destruct up_bits as (bv & H1 & H2 & H3 & H4 & H5).
  pose proof (eC_le data w Hsorted Hwords Hne Hw (j + 1)).
  pose proof (eC_mono data w Hsorted Hwords Hne Hw j (j + 1) ltac:(lia)).
  rewrite (rs_get_unchecked_ok bv) by (auto; lia). do 2 f_equal.
  destruct ((1 <=? s) && (s <=? C (j + 1) - C j)) eqn:E.
  - apply H4; [lia|]. exists (C j + s - 1). destruct (in_block j (C j + s - 1)) as [Hk HU]; try lia.
    split; auto. unfold ePos. rewrite HU. lia.
  - apply not_true_iff_false. intros Hb. apply H4 in Hb; [|lia]. destruct Hb as (k & Hk & Ek).
    destruct (N.eq_dec s 0) as [E0|E0].
    + destruct (pos_z j k Hk) as [_ H6]. apply H6. rewrite Ek. lia.
    + destruct (pos_z (j + 1) k Hk) as [_ H6]. apply H6. rewrite Ek. lia.
Qed.

Lemma low_ok k : k < n -> ef_low e k = Ok (L k).
Proof using G. apply (eg_low _ _ _ G). Qed.

Lemma uL_lt k : k < n -> U k * 2 ^ w < U64 /\ W k < U64 /\ W k = U k * 2 ^ w + L k.
Proof using Hsorted Hwords Hne Hw G.
  intros Hk. pose proof (eW_lt data w Hsorted Hwords Hne Hw k Hk).
  pose proof (eW_split data w Hsorted Hwords Hne Hw k). repeat split; auto; lia.
Qed.

Lemma val_ok k : k < n -> add64 (N.lor (U k * 2 ^ w) (L k)) (ef_zero e) = Ok (D k).
Proof using Hsorted Hwords Hne Hw G.
  intros Hk. rewrite <- N.shiftl_mul_pow2, lor_shift by now apply (eL_lt data w).
  destruct (uL_lt k Hk) as (_ & _ & <-). rewrite (eg_zero _ _ _ G).
  pose proof (eW_val data w Hsorted Hwords Hne Hw k Hk). pose proof (data_lt data w Hsorted Hwords Hne Hw k Hk).
  rewrite add64_ok by lia. f_equal. lia.
Qed.

Lemma ef_get_unchecked_ok k : k < n -> ef_get_unchecked e k = Ok (D k).
Proof using Hsorted Hwords Hne Hw G.
  intros Hk. unfold ef_get_unchecked. rewrite sel1 by auto. cbn [bind]. unfold ePos.
  rewrite sub_ok by lia. cbn [bind]. rewrite sub_ok by lia. cbn [bind].
  rewrite low_ok by auto. cbn [bind]. rewrite (eg_w _ _ _ G).
  replace (U k + k + 1 - k - 1) with (U k) by lia.
  rewrite shl64_chk_exact by (auto; now apply uL_lt). cbn [bind]. now apply val_ok.
Qed.

Lemma ef_get_ok i : ef_get e i = Ok (getN data i).
Proof using Hsorted Hwords Hne Hw G.
  unfold ef_get. rewrite (eg_n _ _ _ G). destruct (N.leb_spec n i).
  - now rewrite getN_none.
  - rewrite ef_get_unchecked_ok by auto. cbn [bind]. now rewrite (getN_ok 0).
Qed.

(** ** delta *)
Lemma ef_delta_ok i : ef_delta e i = Ok (option_map (fun x => if i =? 0 then x else x - D (i - 1)) (getN data i)).
Proof using Hsorted Hwords Hne Hw G.
  unfold ef_delta. rewrite (eg_n _ _ _ G). destruct (N.leb_spec n i) as [Hi|Hi]; [now rewrite getN_none|].
  rewrite (getN_ok 0) by auto. cbn [option_map]. rewrite sel1 by auto. cbn [bind]. unfold ePos at 1.
  rewrite sub_ok by lia. cbn [bind].
  destruct up_bits as (bv & H1 & H2 & H3 & H4 & H5).
  pose proof (eU_mono data w Hsorted Hwords Hne Hw i (n - 1) ltac:(lia) ltac:(lia)).
  rewrite (rs_get_unchecked_ok bv) by (auto; lia). cbn [bind]. rewrite N.add_sub.
  assert (Hb : bit_at (bdata bv) (U i + i) = true <-> 0 < i /\ U (i - 1) = U i).
  { rewrite H4 by lia. split.
    - intros (k & Hk & Ek). assert (k < i).
      { destruct (N.lt_ge_cases k i) as [|Hx]; auto. pose proof (eU_mono data w Hsorted Hwords Hne Hw i k Hx Hk). unfold ePos in Ek. lia. }
      split; [lia|]. pose proof (eU_mono data w Hsorted Hwords Hne Hw k (i - 1) ltac:(lia) ltac:(lia)).
      pose proof (eU_mono data w Hsorted Hwords Hne Hw (i - 1) i ltac:(lia) ltac:(lia)). unfold ePos in Ek. lia.
    - intros [H0 Eu]. exists (i - 1). split; [lia|]. unfold ePos. lia. }
  rewrite (eg_w _ _ _ G).
  assert (HD : 0 < i -> D i - D (i - 1) = W i - W (i - 1) /\ W (i - 1) <= W i).
  { intros H0. pose proof (eW_val data w Hsorted Hwords Hne Hw i Hi).
    pose proof (eW_val data w Hsorted Hwords Hne Hw (i - 1) ltac:(lia)).
    pose proof (eW_mono data w Hsorted Hwords Hne Hw (i - 1) i ltac:(lia) Hi). lia. }
  destruct (uL_lt i Hi) as (Hu & Hx & Es).
  destruct (bit_at (bdata bv) (U i + i)); cbn [bitN].
  - destruct Hb as [Hb _]. destruct (Hb eq_refl) as [H0 Eu]. change (1 =? 1) with true. cbv iota.
    rewrite low_ok by auto. cbn [bind]. rewrite sub_ok by lia. cbn [bind]. rewrite low_ok by lia. cbn [bind].
    destruct (uL_lt (i - 1) ltac:(lia)) as (_ & _ & Es'). rewrite Eu in Es'.
    destruct (HD H0) as [-> Hle]. rewrite sub_ok by lia. cbn [bind]. destruct (N.eqb_spec i 0); [lia|].
    do 2 f_equal. lia.
  - change (0 =? 1) with false. cbv iota. unfold ePos. rewrite sub_ok by lia. cbn [bind]. rewrite sub_ok by lia. cbn [bind].
    replace (U i + i + 1 - i - 1) with (U i) by lia. rewrite shl64_chk_exact by auto. cbn [bind].
    rewrite low_ok by auto. cbn [bind]. destruct (N.eqb_spec i 0) as [E0|E0].
    + rewrite val_ok by auto. reflexivity.
    + rewrite sub_ok by lia. cbn [bind]. rewrite sel1 by lia. cbn [bind]. unfold ePos.
      rewrite sub_ok by lia. cbn [bind]. rewrite sub_ok by lia. cbn [bind].
      replace (U (i - 1) + (i - 1) + 1 - (i - 1) - 1) with (U (i - 1)) by lia.
      destruct (uL_lt (i - 1) ltac:(lia)) as (Hu' & _ & Es').
      rewrite shl64_chk_exact by auto. cbn [bind]. rewrite low_ok by lia. cbn [bind].
      rewrite <- !N.shiftl_mul_pow2, !lor_shift by now apply (eL_lt data w).
      rewrite <- Es, <- Es'. destruct (HD ltac:(lia)) as [-> Hle]. rewrite sub_ok by lia. reflexivity.
Qed.

(** ** Search in a block *)
(** The block of the query is not behind that of the last element. *)
Definition reach (q : N) : Prop := q / 2 ^ w <= B.
Section Search.
Variable q : N.
Hypothesis Hq : reach q.
Local Notation qu := (q / 2 ^ w).
Local Notation ql := (q mod 2 ^ w).
(** First and one past the last index of the block of the query. *)
Local Notation b0 := (C qu).
Local Notation b1 := (C (qu + 1)).

Lemma q_split : q = qu * 2 ^ w + ql.
Proof using Hsorted Hwords Hne Hw G Hq. assert (0 < 2 ^ w) by (apply N.neq_0_lt_0; now apply N.pow_nonzero). rewrite (N.div_mod q (2 ^ w)) at 1 by lia. lia. Qed.
Lemma qu_le : qu <= B.
Proof using Hsorted Hwords Hne Hw G Hq. exact Hq. Qed.
Lemma b_le : b0 <= b1 /\ b1 <= n.
Proof using Hsorted Hwords Hne Hw G Hq.
  split; [apply eC_mono; auto; lia|]. now apply eC_le.
Qed.

(** Comparisons with the query inside, below and above its block. *)
Lemma cmp_in k : b0 <= k -> k < b1 ->
  (W k <=? q) = (L k <=? ql) /\ (W k <? q) = (L k <? ql) /\ (q <=? W k) = (ql <=? L k) /\ (W k = q <-> L k = ql).
Proof using Hsorted Hwords Hne Hw G Hq.
  intros H1 H2. destruct (in_block qu k H1 H2) as [Hk HU]. destruct (uL_lt k Hk) as (_ & _ & E). rewrite HU in E.
  pose proof q_split as Eq. set (x := qu * 2 ^ w) in *. clearbody x. lia.
Qed.
Lemma cmp_below k : k < b0 -> W k < q.
Proof using Hsorted Hwords Hne Hw G Hq.
  intros H. destruct b_le. assert (Hk : k < n) by lia. apply (eC_lt data w Hsorted Hwords Hne Hw qu k Hk) in H.
  unfold eU in H. destruct (N.lt_ge_cases (W k) q) as [|Hx]; auto.
  pose proof (N.div_le_mono q (W k) (2 ^ w) ltac:(now apply N.pow_nonzero) Hx). lia.
Qed.
Lemma cmp_above k : k < n -> b1 <= k -> q < W k.
Proof using Hsorted Hwords Hne Hw G Hq.
  intros Hk H. pose proof (eC_lt data w Hsorted Hwords Hne Hw (qu + 1) k Hk) as Hc.
  unfold eU in Hc. destruct (N.lt_ge_cases q (W k)) as [|Hx]; auto.
  pose proof (N.div_le_mono (W k) q (2 ^ w) ltac:(now apply N.pow_nonzero) Hx). lia.
Qed.

Lemma low_block k : b0 <= k -> k < b1 -> ef_low e k = Ok (L k).
Proof using Hsorted Hwords Hne Hw G Hq. intros H1 H2. apply low_ok. destruct b_le. lia. Qed.
Lemma val_block k : b0 <= k -> k < b1 -> add64 (N.lor (qu * 2 ^ w) (L k)) (ef_zero e) = Ok (D k).
Proof using Hsorted Hwords Hne Hw G Hq.
  intros H1 H2. destruct (in_block qu k H1 H2) as [Hk <-]. now apply val_ok.
Qed.
Lemma W_inj_D i j : i < n -> j < n -> W i = W j -> D i = D j.
Proof using Hsorted Hwords Hne Hw G Hq.
  intros Hi Hj E. rewrite <- (eW_val data w Hsorted Hwords Hne Hw i Hi), <- (eW_val data w Hsorted Hwords Hne Hw j Hj). lia.
Qed.

(** *** Upward search. [T k] is "element [k] counts"; [R] is the number of such elements. *)
Section Up.
Variable index : bool.
Local Notation T := (fun k => if index then W k <? q else W k <=? q).
Local Notation R := (cnt T n).
Definition up_result : N := if index then R else D (R - 1).

Lemma T_spec k : k < n -> T k = (k <? R).
Proof using Hsorted Hwords Hne Hw G Hq.
  intros Hk. apply (cnt_threshold T n); auto. intros i j Hij Hj Hf.
  pose proof (eW_mono data w Hsorted Hwords Hne Hw i j Hij Hj). destruct index; lia.
Qed.
Lemma R_lt k : k < n -> (k < R <-> if index then W k < q else W k <= q).
Proof using Hsorted Hwords Hne Hw G Hq.
  intros Hk. pose proof (T_spec k Hk) as E. cbv beta in E. destruct index; lia.
Qed.
Lemma R_block : b0 <= R /\ R <= b1.
Proof using Hsorted Hwords Hne Hw G Hq.
  destruct b_le as [H1 H2]. split.
  - destruct (N.le_gt_cases b0 R) as [|Hx]; auto. exfalso. pose proof (cmp_below R Hx).
    assert (R < R); [|lia]. apply R_lt; [lia|]. destruct index; lia.
  - destruct (N.le_gt_cases R b1) as [|Hx]; auto. exfalso. pose proof (cnt_le T n).
    pose proof (cmp_above b1 ltac:(lia) ltac:(lia)). apply R_lt in Hx; [|lia]. destruct index; lia.
Qed.
Lemma R_in k : b0 <= k -> k < b1 -> (k < R <-> if index then L k < ql else L k <= ql).
Proof using Hsorted Hwords Hne Hw G Hq.
  intros H1 H2. destruct b_le. rewrite R_lt by lia. destruct (cmp_in k H1 H2) as (E1 & E2 & _). destruct index; lia.
Qed.
(** An element equal to the query is an answer of a predecessor search. *)
Lemma hit_up k : index = false -> b0 <= k -> k < b1 -> L k = ql -> D k = up_result.
Proof using Hsorted Hwords Hne Hw G Hq.
  intros Ei H1 H2 E. unfold up_result. rewrite Ei. destruct b_le. destruct (cmp_in k H1 H2) as (_ & _ & _ & E4).
  apply E4 in E. assert (Hk : k < R) by (apply R_lt; [lia|]; rewrite Ei; lia).
  rewrite Ei in Hk. pose proof (cnt_le (fun k => W k <=? q) n) as Hle.
  assert (HR : R - 1 < R) by (rewrite Ei; lia). apply R_lt in HR; [|rewrite Ei; lia]. rewrite Ei in HR.
  pose proof (eW_mono data w Hsorted Hwords Hne Hw k (cnt (fun k => W k <=? q) n - 1) ltac:(lia) ltac:(lia)).
  apply W_inj_D; lia.
Qed.

Lemma ef_back_ok fuel : forall c, index = true -> b0 < R -> R <= c -> c < b1 -> L c = ql -> c - R < N.of_nat fuel ->
  ef_back fuel e ql c = Ok R.
Proof using Hsorted Hwords Hne Hw G Hq.
  induction fuel as [|fuel IH]; intros c Ei H0 H1 H2 E Hf; [lia|]. cbn [ef_back].
  rewrite sub_ok by lia. cbn [bind]. rewrite low_block by lia. cbn [bind].
  pose proof (R_in (c - 1) ltac:(lia) ltac:(lia)) as HR.
  destruct (N.eqb_spec (L (c - 1)) ql) as [El|El].
  - apply IH; auto; try lia. destruct index; [lia|discriminate].
    destruct index; lia.
  - f_equal. assert (L (c - 1) < ql); [|destruct index; [lia|discriminate]].
    destruct b_le. pose proof (eW_mono data w Hsorted Hwords Hne Hw (c - 1) c ltac:(lia) ltac:(lia)).
    destruct (cmp_in c ltac:(lia) H2) as (_ & _ & _ & E4). apply E4 in E.
    destruct (cmp_in (c - 1) ltac:(lia) ltac:(lia)) as (E1 & _). lia.
Qed.

Lemma ef_bin_up fuel : forall lb ub lc,
  b0 < lb -> lb < R -> lb <= ub -> ub < b1 -> (ub = b1 - 1 \/ R <= ub) -> lc = L lb -> ub - lb <= N.of_nat fuel + 1 ->
  (exists v, ef_bin fuel index true e ql (qu * 2 ^ w) lb ub lc = Ok (inl v) /\ v = up_result) \/
  (exists lb' ub', ef_bin fuel index true e ql (qu * 2 ^ w) lb ub lc = Ok (inr (lb', ub', L lb')) /\
     b0 < lb' /\ lb' < R /\ lb' <= ub' /\ ub' < b1 /\ (ub' = b1 - 1 \/ R <= ub') /\ ub' <= lb' + 1).
Proof using Hsorted Hwords Hne Hw G Hq.
  induction fuel as [|fuel IH]; intros lb ub lc H1 H2 H3 H4 H5 -> Hf; cbn [ef_bin];
    (rewrite sub_ok by lia; cbn [bind]; destruct (N.ltb_spec lb (ub - 1)) as [Hlt|Hge];
     [|right; exists lb, ub; repeat split; auto; lia]); [lia|].
  rewrite sub_ok by lia. cbn [bind]. rewrite N.shiftr_div_pow2. change (2 ^ 1) with 2.
  set (mid := lb + (ub - lb) / 2). assert (Hm : lb < mid /\ mid < ub) by (clear - Hlt; unfold mid; dlia).
  rewrite low_block by lia. cbn [bind]. pose proof (R_in mid ltac:(lia) ltac:(lia)) as HR.
  destruct (N.ltb_spec ql (L mid)) as [Hgt|Hle].
  - apply IH; auto; try lia. right. destruct index; lia.
  - destruct (N.eqb_spec (L mid) ql) as [E|E].
    + left. destruct index eqn:Ei.
      * rewrite ef_back_ok; auto; try lia.
        cbn [bind]. eexists. split; [reflexivity|]. unfold up_result. now rewrite Ei.
      * rewrite val_block by lia. cbn [bind]. eexists. split; [reflexivity|]. apply hit_up; auto; lia.
    + apply IH; auto; try lia. apply HR. destruct index; lia.
Qed.

Lemma ef_binary_up c lc : 4 <= c -> b0 + c - 1 < b1 -> b0 + c - 1 < R -> lc = L (b0 + c - 1) ->
  (exists v, ef_binary index true e b0 qu ql (qu * 2 ^ w) c lc = Ok (Ret v) /\ v = up_result) \/
  (exists c' lc', ef_binary index true e b0 qu ql (qu * 2 ^ w) c lc = Ok (Cont c' lc') /\
     b0 < R /\ (if index then b0 + c' = R else lc' = L (R - 1))).
Proof using Hsorted Hwords Hne Hw G Hq.
  intros Hc H1 H2 ->. unfold ef_binary. pose proof qu_le. pose proof (N.le_0_l qu) as Hqu0. destruct b_le as [Hb1 Hb2]. destruct R_block as [HR1 HR2].
  rewrite sel0 by lia. cbn [bind]. rewrite sub_ok by lia. cbn [bind]. rewrite sub_ok by lia. cbn [bind dir].
  rewrite sub_ok by lia. cbn [bind]. replace (qu + 1 + b1 - qu - 2) with (b1 - 1) by lia.
  destruct (ef_bin_up (N.to_nat (b1 - 1)) (b0 + c - 1) (b1 - 1) (L (b0 + c - 1)))
    as [(v & E & Hv)|(lb & ub & E & I1 & I2 & I3 & I4 & I5 & I6)]; auto; try lia.
  - rewrite E. cbn [bind]. left. eauto.
  - rewrite E. cbn [bind]. destruct (N.ltb_spec lb (b1 - 1)) as [Hlt|Hge].
    + rewrite low_block by lia. cbn [bind]. pose proof (R_in (lb + 1) ltac:(lia) ltac:(lia)) as HR.
      unfold nye. destruct index eqn:Ei.
      * destruct (N.ltb_spec (L (lb + 1)) ql) as [Hx|Hx]; cbn [bind].
        -- left. eexists. split; [reflexivity|]. unfold up_result. rewrite Ei. lia.
        -- right. rewrite sub_ok by lia. cbn [bind]. do 2 eexists. split; [reflexivity|]. lia.
      * destruct (N.leb_spec (L (lb + 1)) ql) as [Hx|Hx]; cbn [bind].
        -- left. rewrite val_block by lia. cbn [bind]. eexists. split; [reflexivity|]. unfold up_result. rewrite Ei.
           f_equal. lia.
        -- right. do 2 eexists. split; [reflexivity|]. split; [lia|]. f_equal. lia.
    + cbn [bind]. right. destruct index eqn:Ei.
      * rewrite sub_ok by lia. cbn [bind]. do 2 eexists. split; [reflexivity|]. lia.
      * do 2 eexists. split; [reflexivity|]. split; [lia|]. f_equal. lia.
Qed.

Lemma ef_linear_up fuel : forall c lc, 1 <= c -> c <= 3 -> 4 <= c + N.of_nat fuel -> b0 + c - 1 < b1 -> b0 + c - 1 < R ->
  lc = L (b0 + c - 1) ->
  (exists v, ef_linear fuel index true e (qu + b0) b0 qu ql (qu * 2 ^ w) c lc = Ok (Ret v) /\ v = up_result) \/
  (exists c' lc', ef_linear fuel index true e (qu + b0) b0 qu ql (qu * 2 ^ w) c lc = Ok (Cont c' lc') /\
     b0 < R /\ (if index then b0 + c' = R else lc' = L (R - 1))).
Proof using Hsorted Hwords Hne Hw G Hq.
  induction fuel as [|fuel IH]; intros c lc Hc1 Hc2 Hf H1 H2 ->; [lia|].
  pose proof qu_le. pose proof (N.le_0_l qu) as Hqu0. destruct b_le as [Hb1 Hb2]. destruct R_block as [HR1 HR2].
  cbn [ef_linear dir bind]. rewrite block_bit by lia. cbn [bind].
  destruct (N.leb_spec 1 (c + 1)); [|lia]. cbn [andb]. destruct (N.leb_spec (c + 1) (b1 - b0)) as [Hin|Hout]; cbn [bitN].
  2:{ change (0 <? 0) with false. cbv iota. right. do 2 eexists. split; [reflexivity|]. split; [lia|].
      destruct index; [lia|]. f_equal. lia. }
  change (0 <? 1) with true. cbv iota. rewrite low_block by lia. cbn [bind].
  pose proof (R_in (b0 + c) ltac:(lia) ltac:(lia)) as HR.
  destruct (N.ltb_spec ql (L (b0 + c))) as [Hgt|Hle].
  - left. assert (ER : b0 + c = R) by (destruct index; lia). destruct index eqn:Ei.
    + eexists. split; [reflexivity|]. unfold up_result. rewrite Ei. auto.
    + rewrite val_block by lia. cbn [bind]. eexists. split; [reflexivity|]. unfold up_result. rewrite Ei. f_equal. lia.
  - destruct (N.eqb_spec (L (b0 + c)) ql) as [E|E].
    + left. destruct index eqn:Ei.
      * eexists. split; [reflexivity|]. unfold up_result. rewrite Ei. lia.
      * rewrite val_block by lia. cbn [bind]. eexists. split; [reflexivity|]. apply hit_up; auto; lia.
    + assert (b0 + c < R) by (destruct index; lia). destruct (N.eqb_spec (c + 1) 4).
      * apply ef_binary_up; try lia. f_equal. lia.
      * apply IH; try lia. f_equal. lia.
Qed.

Lemma ef_search_up : (index = false -> 0 < R) ->
  ef_search index true e (qu + b0) b0 q qu ql (qu * 2 ^ w) = Ok up_result.
Proof using Hsorted Hwords Hne Hw G Hq.
  intros Hpos. pose proof qu_le. pose proof (N.le_0_l qu) as Hqu0. destruct b_le as [Hb1 Hb2]. destruct R_block as [HR1 HR2].
  unfold ef_search. cbn [dir bind]. rewrite block_bit by lia. cbn [bind].
  change (1 <=? 1) with true. cbn [andb].
  assert (Hmiss : R = b0 -> (if index then Ok b0 else let* i := sub b0 1 in ef_get_unchecked e i) = Ok up_result).
  { intros E. unfold up_result. rewrite E. destruct index; auto. specialize (Hpos eq_refl). rewrite sub_ok by lia. cbn [bind].
    apply ef_get_unchecked_ok. lia. }
  destruct (N.leb_spec 1 (b1 - b0)) as [Hin|Hout]; cbn [bitN].
  2:{ change (0 <? 0) with false. cbv iota. cbn [bind]. apply Hmiss. lia. }
  change (0 <? 1) with true. cbv iota. rewrite low_block by lia. cbn [bind].
  assert (Enye : nye index true (N.lor (qu * 2 ^ w) (L b0)) q = (b0 <? R)).
  { rewrite <- N.shiftl_mul_pow2, lor_shift by now apply (eL_lt data w).
    destruct (in_block qu b0 ltac:(lia) ltac:(lia)) as [Hk HU]. destruct (uL_lt b0 Hk) as (_ & _ & E). rewrite HU in E.
    rewrite <- E. unfold nye. pose proof (T_spec b0 Hk) as HT. cbv beta in HT. destruct index; auto. }
  rewrite Enye. destruct (N.ltb_spec b0 R) as [HR|HR]; [|cbn [bind]; apply Hmiss; lia].
  destruct (ef_linear_up 4 1 (L b0)) as [(v & E & Hv)|(c' & lc' & E & Hx & Hy)]; try lia; [f_equal; lia| |].
  - rewrite E. cbn [bind]. now rewrite Hv.
  - rewrite E. cbn [bind]. unfold up_result. destruct index eqn:Ei; cbn [bind].
    + now rewrite Hy.
    + rewrite Hy, val_block by lia. reflexivity.
Qed.
End Up.

(** *** Downward search: [F] is the index of the first element not below the query. *)
Hypothesis Hq' : q <= W (n - 1).
Local Notation F := (cnt (fun k => W k <? q) n).
Lemma F_lt k : k < n -> (F <= k <-> q <= W k).
Proof using Hsorted Hwords Hne Hw G Hq Hq'.
  intros Hk. pose proof (R_lt true k Hk) as E. cbv beta iota in E. lia.
Qed.
Lemma F_block : b0 <= F /\ F <= b1.
Proof using Hsorted Hwords Hne Hw G Hq Hq'. apply (R_block true). Qed.
Lemma F_n : F < n.
Proof using Hsorted Hwords Hne Hw G Hq Hq'. assert (F <= n - 1); [|lia]. apply F_lt; lia. Qed.
Lemma F_in k : b0 <= k -> k < b1 -> (F <= k <-> ql <= L k).
Proof using Hsorted Hwords Hne Hw G Hq Hq'.
  intros H1 H2. pose proof (R_in true k H1 H2) as E. cbv beta iota in E. lia.
Qed.
Lemma hit_down k : b0 <= k -> k < b1 -> L k = ql -> D k = D F.
Proof using Hsorted Hwords Hne Hw G Hq Hq'.
  intros H1 H2 E. destruct b_le. destruct (cmp_in k H1 H2) as (_ & _ & _ & E4). apply E4 in E. pose proof F_n as HF.
  assert (F <= k) by (apply F_lt; lia). assert (q <= W F) by (apply F_lt; lia).
  pose proof (eW_mono data w Hsorted Hwords Hne Hw F k ltac:(lia) ltac:(lia)). apply W_inj_D; lia.
Qed.
(** The first element of the whole vector has all low bits zero. *)
Lemma L_0 : L 0 = 0.
Proof using Hsorted Hwords Hne Hw G Hq Hq'. unfold eL, eW. rewrite N.sub_diag. apply N.mod_0_l. now apply N.pow_nonzero. Qed.
Lemma gt_pos k : ql < L k -> 0 < k.
Proof using Hsorted Hwords Hne Hw G Hq Hq'. intros H. destruct (N.eq_dec k 0) as [->|]; [|lia]. rewrite L_0 in H. lia. Qed.

Lemma ef_bin_down fuel : forall lb ub lc,
  b0 <= lb -> lb <= ub -> ub < b1 -> ql < L ub -> (lb = b0 \/ L lb < ql) -> lc = L ub -> ub - lb <= N.of_nat fuel + 1 ->
  (exists v, ef_bin fuel false false e ql (qu * 2 ^ w) lb ub lc = Ok (inl v) /\ v = D F) \/
  (exists lb' ub', ef_bin fuel false false e ql (qu * 2 ^ w) lb ub lc = Ok (inr (lb', ub', L ub')) /\
     b0 <= lb' /\ lb' <= ub' /\ ub' < b1 /\ ql < L ub' /\ (lb' = b0 \/ L lb' < ql) /\ ub' <= lb' + 1).
Proof using Hsorted Hwords Hne Hw G Hq Hq'.
  induction fuel as [|fuel IH]; intros lb ub lc H1 H2 H3 H4 H5 -> Hf; cbn [ef_bin]; pose proof (gt_pos ub H4);
    (rewrite sub_ok by lia; cbn [bind]; destruct (N.ltb_spec lb (ub - 1)) as [Hlt|Hge];
     [|right; exists lb, ub; repeat split; auto; lia]); [lia|].
  rewrite sub_ok by lia. cbn [bind]. rewrite N.shiftr_div_pow2. change (2 ^ 1) with 2.
  set (mid := lb + (ub - lb) / 2). assert (Hm : lb < mid /\ mid < ub) by (clear - Hlt; unfold mid; dlia).
  rewrite low_block by lia. cbn [bind].
  destruct (N.ltb_spec ql (L mid)) as [Hgt|Hle].
  - apply IH; auto; lia.
  - destruct (N.eqb_spec (L mid) ql) as [E|E].
    + left. rewrite val_block by lia. cbn [bind]. eexists. split; [reflexivity|]. apply hit_down; auto; lia.
    + apply IH; auto; lia.
Qed.

Lemma ef_binary_down c lc : 4 <= c -> b0 + c <= b1 -> ql < L (b1 - c) -> lc = L (b1 - c) ->
  (exists v, ef_binary false false e (b1 - 1) qu ql (qu * 2 ^ w) c lc = Ok (Ret v) /\ v = D F) \/
  (exists c' lc', ef_binary false false e (b1 - 1) qu ql (qu * 2 ^ w) c lc = Ok (Cont c' lc') /\
     F < b1 /\ lc' = L F).
Proof using Hsorted Hwords Hne Hw G Hq Hq'.
  intros Hc H1 H2 ->. unfold ef_binary. pose proof qu_le. pose proof (N.le_0_l qu) as Hqu0. destruct b_le as [Hb1 Hb2]. destruct F_block as [HF1 HF2].
  pose proof (gt_pos _ H2).
  rewrite sel0 by lia. cbn [bind]. rewrite sub_ok by lia. cbn [bind dir]. rewrite sub_ok by lia. cbn [bind].
  replace (qu + b0 - qu) with b0 by lia. replace (b1 - 1 - c + 1) with (b1 - c) by lia.
  destruct (ef_bin_down (N.to_nat (b1 - c)) b0 (b1 - c) (L (b1 - c)))
    as [(v & E & Hv)|(lb & ub & E & I1 & I2 & I3 & I4 & I5 & I6)]; auto; try lia.
  - rewrite E. cbn [bind]. left. eauto.
  - rewrite E. cbn [bind]. pose proof (F_in ub ltac:(lia) ltac:(lia)) as HU.
    destruct (N.ltb_spec b0 ub) as [Hlt|Hge].
    + rewrite sub_ok by lia. cbn [bind]. rewrite low_block by lia. cbn [bind].
      pose proof (F_in (ub - 1) ltac:(lia) ltac:(lia)) as HR. unfold nye.
      destruct (N.leb_spec ql (L (ub - 1))) as [Hx|Hx]; cbn [bind].
      * left. rewrite val_block by lia. cbn [bind]. eexists. split; [reflexivity|]. f_equal.
        destruct (N.eq_dec lb ub) as [->|]; [lia|]. assert (lb = ub - 1) by lia. subst lb. lia.
      * right. do 2 eexists. split; [reflexivity|]. assert (ub = F) by lia. subst ub. split; [lia|auto].
    + cbn [bind]. right. do 2 eexists. split; [reflexivity|]. assert (ub = F) by lia. subst ub. split; [lia|auto].
Qed.

Lemma ef_linear_down fuel : forall c lc, 1 <= c -> c <= 3 -> 4 <= c + N.of_nat fuel -> b0 + c <= b1 -> ql <= L (b1 - c) ->
  lc = L (b1 - c) ->
  (exists v, ef_linear fuel false false e (qu + 1 + b1) (b1 - 1) qu ql (qu * 2 ^ w) c lc = Ok (Ret v) /\ v = D F) \/
  (exists c' lc', ef_linear fuel false false e (qu + 1 + b1) (b1 - 1) qu ql (qu * 2 ^ w) c lc = Ok (Cont c' lc') /\
     F < b1 /\ lc' = L F).
Proof using Hsorted Hwords Hne Hw G Hq Hq'.
  induction fuel as [|fuel IH]; intros c lc Hc1 Hc2 Hf H1 H2 ->; [lia|].
  pose proof qu_le. pose proof (N.le_0_l qu) as Hqu0. destruct b_le as [Hb1 Hb2]. destruct F_block as [HF1 HF2].
  pose proof (F_in (b1 - c) ltac:(lia) ltac:(lia)) as HFc.
  cbn [ef_linear dir bind]. rewrite (sub_ok (qu + 1 + b1)) by lia. cbn [bind].
  replace (qu + 1 + b1 - (c + 1)) with (qu + b0 + (b1 - b0 - c)) by lia. rewrite block_bit by lia. cbn [bind].
  destruct (N.leb_spec (b1 - b0 - c) (b1 - b0)); [|lia]. rewrite andb_true_r.
  destruct (N.leb_spec 1 (b1 - b0 - c)) as [Hin|Hout]; cbn [bitN].
  2:{ change (0 <? 0) with false. cbv iota. right. do 2 eexists. split; [reflexivity|].
      assert (E : b1 - c = F) by lia. rewrite E. split; [lia|auto]. }
  change (0 <? 1) with true. cbv iota. rewrite sub_ok by lia. cbn [bind].
  replace (b1 - 1 - c) with (b1 - (c + 1)) by lia. rewrite low_block by lia. cbn [bind].
  pose proof (F_in (b1 - (c + 1)) ltac:(lia) ltac:(lia)) as HR.
  destruct (N.ltb_spec (L (b1 - (c + 1))) ql) as [Hgt|Hle].
  - left. assert (E : b1 - c = F) by lia. rewrite val_block by lia. cbn [bind]. rewrite E. eauto.
  - destruct (N.eqb_spec (L (b1 - (c + 1))) ql) as [E|E].
    + left. rewrite val_block by lia. cbn [bind]. eexists. split; [reflexivity|]. apply hit_down; auto; lia.
    + destruct (N.eqb_spec (c + 1) 4).
      * apply ef_binary_down; auto; lia.
      * apply IH; auto; lia.
Qed.

Lemma ef_search_down : ef_search false false e (qu + 1 + b1) (b1 - 1) q qu ql (qu * 2 ^ w) = Ok (D F).
Proof using Hsorted Hwords Hne Hw G Hq Hq'.
  pose proof qu_le. pose proof (N.le_0_l qu) as Hqu0. destruct b_le as [Hb1 Hb2]. destruct F_block as [HF1 HF2]. pose proof F_n as HFn.
  assert (H0 : 0 < b1).
  { apply (eC_lt data w Hsorted Hwords Hne Hw (qu + 1) 0 Hne). rewrite (eU_0 data w Hsorted Hwords Hne Hw). lia. }
  unfold ef_search. cbn [dir bind]. rewrite sub_ok by lia. cbn [bind].
  replace (qu + 1 + b1 - 1) with (qu + b0 + (b1 - b0)) by lia. rewrite block_bit by lia. cbn [bind].
  rewrite N.leb_refl, andb_true_r.
  assert (Hmiss : F = b1 -> ef_get_unchecked e (b1 - 1 + 1) = Ok (D F)).
  { intros E. replace (b1 - 1 + 1) with F by lia. apply ef_get_unchecked_ok. lia. }
  destruct (N.leb_spec 1 (b1 - b0)) as [Hin|Hout]; cbn [bitN].
  2:{ change (0 <? 0) with false. cbv iota. cbn [bind]. apply Hmiss. lia. }
  change (0 <? 1) with true. cbv iota. rewrite low_block by lia. cbn [bind].
  pose proof (F_in (b1 - 1) ltac:(lia) ltac:(lia)) as HR.
  assert (Enye : nye false false (N.lor (qu * 2 ^ w) (L (b1 - 1))) q = (F <=? b1 - 1)).
  { rewrite <- N.shiftl_mul_pow2, lor_shift by now apply (eL_lt data w).
    destruct (in_block qu (b1 - 1) ltac:(lia) ltac:(lia)) as [Hk HU]. destruct (uL_lt (b1 - 1) Hk) as (_ & _ & E). rewrite HU in E.
    rewrite <- E. unfold nye. pose proof (F_lt (b1 - 1) Hk). lia. }
  rewrite Enye. destruct (N.leb_spec F (b1 - 1)) as [HF|HF]; [|cbn [bind]; apply Hmiss; lia].
  destruct (ef_linear_down 4 1 (L (b1 - 1))) as [(v & E & Hv)|(c' & lc' & E & Hx & Hy)]; auto; try lia.
  - rewrite E. cbn [bind]. now rewrite Hv.
  - rewrite E. cbn [bind]. rewrite Hy, val_block by lia. reflexivity.
Qed.
End Search.

(** ** The queries *)
Lemma shiftr_qu q : N.shiftr q w = q / 2 ^ w.
Proof using Hsorted Hwords Hne Hw G. apply N.shiftr_div_pow2. Qed.

Lemma D_0_le k : k < n -> D 0 <= D k.
Proof using Hsorted Hwords Hne Hw G. intros. now apply nondecreasing_nth; try lia. Qed.
Lemma cnt_shift (f : N -> N -> bool) q : D 0 <= q ->
  (forall a b, f (a - D 0) (b - D 0) = f a b \/ a < D 0 \/ b < D 0) ->
  cnt (fun k => f (W k) (q - D 0)) n = cnt (fun k => f (D k) q) n.
Proof using Hsorted Hwords Hne Hw G.
  intros Hq Hf. apply cnt_ext. intros k Hk. unfold eW. pose proof (D_0_le k Hk).
  destruct (Hf (D k) q) as [E|[E|E]]; auto; lia.
Qed.

Lemma prep q : D 0 <= q -> q <= D (n - 1) ->
  reach (q - D 0) /\ (q - D 0) / 2 ^ w * 2 ^ w < U64.
Proof using Hsorted Hwords Hne Hw G.
  intros H1 H2. split; [unfold reach, eU, eW; apply N.div_le_mono; [now apply N.pow_nonzero|lia]|].
  pose proof (data_lt data w Hsorted Hwords Hne Hw (n - 1) ltac:(lia)).
  pose proof (N.mul_div_le (q - D 0) (2 ^ w) ltac:(now apply N.pow_nonzero)). lia.
Qed.

Lemma ef_predecessor_ok q : D 0 <= q ->
  ef_predecessor e q = Ok (Some (D (cnt (fun k => D k <=? q) n - 1))).
Proof using Hsorted Hwords Hne Hw G.
  intros H0. unfold ef_predecessor. rewrite (eg_zero _ _ _ G), (eg_n _ _ _ G).
  destruct (N.ltb_spec q (D 0)); [lia|]. destruct (N.eqb_spec n 0) as [?|_]; [lia|]. cbn [orb].
  unfold ef_predecessor_unchecked. rewrite (eg_max _ _ _ G), (eg_n _ _ _ G), (eg_zero _ _ _ G), (eg_w _ _ _ G).
  destruct (N.ltb_spec (D (n - 1)) q) as [Hm|Hm].
  - rewrite sub_ok by lia. cbn [bind]. rewrite ef_get_unchecked_ok by lia. cbn [bind].
    rewrite (cnt_ext _ (fun _ => true)), cnt_true; auto.
    intros k Hk. pose proof (nondecreasing_nth data Hsorted k (n - 1) ltac:(lia) ltac:(lia)). lia.
  - destruct (prep q H0 Hm) as [P1 P2]. rewrite sub_ok by lia. cbn [bind]. rewrite shiftr_qu, land_lowmask by auto.
    pose proof (qu_le _ P1). pose proof (N.le_0_l ((q - D 0) / 2 ^ w)). rewrite sel0 by lia. cbn [bind]. rewrite sub_ok by lia. cbn [bind].
    rewrite shl64_chk_exact by auto. cbn [bind].
    replace ((q - D 0) / 2 ^ w + C ((q - D 0) / 2 ^ w) - (q - D 0) / 2 ^ w) with (C ((q - D 0) / 2 ^ w)) by lia.
    rewrite (ef_search_up _ P1 false).
    + cbn [bind]. unfold up_result. rewrite (cnt_shift N.leb q H0); auto. intros a b. lia.
    + intros _. apply (R_lt _ P1 false 0); [lia|]. unfold eW. lia.
Qed.

Lemma ef_successor_ok q : q <= D (n - 1) ->
  ef_successor e q = Ok (Some (D (cnt (fun k => D k <? q) n))).
Proof using Hsorted Hwords Hne Hw G.
  intros Hm. unfold ef_successor. rewrite (eg_max _ _ _ G), (eg_n _ _ _ G).
  destruct (N.ltb_spec (D (n - 1)) q); [lia|]. destruct (N.eqb_spec n 0) as [?|_]; [lia|]. cbn [orb].
  unfold ef_successor_unchecked. rewrite (eg_zero _ _ _ G), (eg_w _ _ _ G).
  destruct (N.ltb_spec q (D 0)) as [H0|H0].
  - rewrite ef_get_unchecked_ok by lia. cbn [bind].
    rewrite (cnt_ext _ (fun _ => false)), cnt_false; auto. intros k Hk. pose proof (D_0_le k Hk). lia.
  - destruct (prep q H0 Hm) as [P1 P2]. rewrite sub_ok by lia. cbn [bind]. rewrite shiftr_qu, land_lowmask by auto.
    pose proof (qu_le _ P1). pose proof (N.le_0_l ((q - D 0) / 2 ^ w)). rewrite sel0 by lia. cbn [bind]. rewrite sub_ok by lia. cbn [bind].
    assert (Hb : 0 < C ((q - D 0) / 2 ^ w + 1)).
    { apply (eC_lt data w Hsorted Hwords Hne Hw _ 0 Hne). rewrite (eU_0 data w Hsorted Hwords Hne Hw). lia. }
    rewrite sub_ok by lia. cbn [bind]. rewrite shl64_chk_exact by auto. cbn [bind].
    replace ((q - D 0) / 2 ^ w + 1 + C ((q - D 0) / 2 ^ w + 1) - (q - D 0) / 2 ^ w - 2) with (C ((q - D 0) / 2 ^ w + 1) - 1) by lia.
    rewrite (ef_search_down _ P1) by (unfold eW; lia). cbn [bind]. rewrite (cnt_shift N.ltb q H0); auto. intros a b. lia.
Qed.

Lemma ef_rank_ok q : ef_rank e q = Ok (cnt (fun k => D k <? q) n).
Proof using Hsorted Hwords Hne Hw G.
  unfold ef_rank. rewrite (eg_max _ _ _ G), (eg_n _ _ _ G), (eg_zero _ _ _ G), (eg_w _ _ _ G).
  destruct (N.ltb_spec (D (n - 1)) q) as [Hm|Hm]; cbn [orb].
  - rewrite (cnt_ext _ (fun _ => true)), cnt_true; auto.
    intros k Hk. pose proof (nondecreasing_nth data Hsorted k (n - 1) ltac:(lia) ltac:(lia)). lia.
  - destruct (N.eqb_spec n 0) as [?|_]; [lia|]. destruct (N.ltb_spec q (D 0)) as [H0|H0].
    + rewrite (cnt_ext _ (fun _ => false)), cnt_false; auto. intros k Hk. pose proof (D_0_le k Hk). lia.
    + destruct (prep q H0 Hm) as [P1 P2]. rewrite sub_ok by lia. cbn [bind]. rewrite shiftr_qu, land_lowmask by auto.
      pose proof (qu_le _ P1). pose proof (N.le_0_l ((q - D 0) / 2 ^ w)). rewrite sel0 by lia. cbn [bind]. rewrite sub_ok by lia. cbn [bind].
      rewrite shl64_chk_exact by auto. cbn [bind].
      replace ((q - D 0) / 2 ^ w + C ((q - D 0) / 2 ^ w) - (q - D 0) / 2 ^ w) with (C ((q - D 0) / 2 ^ w)) by lia.
      rewrite (ef_search_up _ P1 true); [|discriminate]. unfold up_result. rewrite (cnt_shift N.ltb q H0); auto. intros a b. lia.
Qed.
End Query.
