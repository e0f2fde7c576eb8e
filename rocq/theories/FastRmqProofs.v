(** * Proofs about [FastRmq]. *)
From Verif Require Import Base Spec BaseFacts WordFacts BitVecModel RsVecModel PdepProofs EFProofs RmqModel RmqProofs.

(** ** SmallBitVector *)
Notation zeros v := (cnt (fun k => negb (N.testbit v k))).

Lemma testbit_mask128 i k : i <= 128 -> 
  N.testbit (((if i <? 128 then 2 ^ i else 0) + (U128 - 1)) mod U128) k = (k <? i).
Proof.
  intros Hi.
  assert (E : ((if i <? 128 then 2 ^ i else 0) + (U128 - 1)) mod U128 = N.ones i).
  { rewrite N.ones_equiv. destruct (N.ltb_spec i 128) as [H|H].
    - assert (P0 : 0 < 2 ^ i) by (apply N.neq_0_lt_0, N.pow_nonzero; lia).
      assert (P1 : 2 ^ i < U128) by (unfold U128; apply N.pow_lt_mono_r; lia).
      replace (2 ^ i + (U128 - 1)) with (2 ^ i - 1 + 1 * U128) by lia. rewrite N.mod_add by (unfold U128; lia).
      rewrite N.mod_small; lia.
    - replace i with 128 by lia. reflexivity. }
  rewrite E. destruct (N.ltb_spec k i); [now apply N.ones_spec_low|now apply N.ones_spec_high].
Qed.
Lemma testbit_not128 v k : k < 128 -> N.testbit (N.lxor v (U128 - 1)) k = negb (N.testbit v k).
Proof.
  intros H. rewrite N.lxor_spec. change (U128 - 1) with (N.ones 128). rewrite N.ones_spec_low by auto.
  now destruct (N.testbit v k).
Qed.
Lemma testbit_not64 x k : k < 64 -> N.testbit (not64 x) k = negb (N.testbit x k).
Proof. intros H. rewrite not64_spec. destruct (N.ltb_spec k 64); [|lia]. now destruct (N.testbit x k). Qed.
Lemma land_lt a b n : b < 2 ^ n -> N.land a b < 2 ^ n.
Proof.
  intros H. destruct (N.eq_dec (N.land a b) 0) as [->|E]; [apply N.neq_0_lt_0, N.pow_nonzero; lia|].
  apply N.log2_lt_pow2; [lia|]. eapply N.le_lt_trans; [apply N.log2_land|].
  destruct (N.eq_dec b 0) as [->|Eb]; [rewrite N.land_0_r in E; lia|].
  assert (N.log2 b < n) by (apply N.log2_lt_pow2; lia). lia.
Qed.

Lemma sbv_rank0_ok v i : i <= 128 -> sbv_rank0 v i = Ok (zeros v i).
Proof.
  intros Hi. unfold sbv_rank0. destruct (N.leb_spec i 128); [|lia]. cbn [assert bind].
  rewrite (popcount_cnt _ 128).
  2:{ apply land_lt. change (2 ^ 128) with U128. apply N.mod_lt. unfold U128. lia. }
  f_equal. match goal with |- cnt ?F 128 = _ => replace (cnt F 128) with (cnt F (i + (128 - i))) by (f_equal; lia) end. rewrite cnt_add.
  rewrite (cnt_ext _ (fun k => negb (N.testbit v k)) i).
  - rewrite (cnt_ext _ (fun _ => false) (128 - i)); [rewrite cnt_false; lia|].
    intros k Hk. rewrite N.land_spec, testbit_mask128 by auto. destruct (N.ltb_spec (i + k) i); [lia|]. now rewrite andb_false_r.
  - intros k Hk. rewrite N.land_spec, testbit_mask128 by auto. destruct (N.ltb_spec k i); [|lia].
    rewrite andb_true_r. apply testbit_not128. lia.
Qed.
Lemma sbv_select0_ok v p : p < 128 -> N.testbit v p = false -> sbv_select0 v (zeros v p) = Ok p.
Proof.
  intros Hp Hb. unfold sbv_select0. change 0xFFFFFFFFFFFFFFFF with (N.ones 64).
  assert (E : count_zeros64 (N.land v (N.ones 64)) = zeros v 64).
  { unfold count_zeros64. rewrite N.land_ones. rewrite popcount64 by (change U64 with (2 ^ 64); apply N.mod_lt; lia).
    rewrite (cnt_ext _ (N.testbit v)) by (intros; now apply N.mod_pow2_bits_low).
    rewrite cnt_negb. lia. }
  rewrite E. destruct (N.leb_spec (zeros v 64) (zeros v p)) as [H|H].
  - destruct (N.le_gt_cases 64 p) as [H64|H64].
    + assert (Ec : zeros v p - zeros v 64 = cnt (fun k => negb (N.testbit v (64 + k))) (p - 64)).
      { replace p with (64 + (p - 64)) at 1 by lia. rewrite cnt_add. lia. }
      rewrite Ec. rewrite N.mod_small by (pose proof (cnt_le (fun k => negb (N.testbit v (64 + k))) (p - 64)); lia).
      assert (Hbit : forall k, k < 64 -> N.testbit (not64 (N.shiftr v 64 mod U64)) k = negb (N.testbit v (64 + k))).
      { intros k Hk. rewrite testbit_not64 by auto. change U64 with (2 ^ 64). rewrite N.mod_pow2_bits_low by auto.
        rewrite N.shiftr_spec by lia. now rewrite N.add_comm. }
      rewrite (pdep_select_ok _ _ (p - 64)).
      * cbn [bind]. f_equal. lia.
      * apply not64_lt. change U64 with (2 ^ 64). apply N.mod_lt. lia.
      * rewrite Hbit by lia. replace (64 + (p - 64)) with p by lia. now rewrite Hb.
      * apply cnt_ext. intros k Hk. apply Hbit. lia.
    + exfalso. assert (zeros v p < zeros v 64); [|lia]. apply cnt_lt; auto. now rewrite Hb.
  - destruct (N.le_gt_cases 64 p) as [H64|H64]; [pose proof (cnt_mono (fun k => negb (N.testbit v k)) 64 p); lia|].
    assert (Hbit : forall k, k < 64 -> N.testbit (not64 (N.land v (N.ones 64))) k = negb (N.testbit v k)).
    { intros k Hk. rewrite testbit_not64 by auto. rewrite N.land_ones. now rewrite N.mod_pow2_bits_low. }
    apply pdep_select_ok.
    + apply not64_lt. rewrite N.land_ones. change U64 with (2 ^ 64). apply N.mod_lt. lia.
    + rewrite Hbit by auto. now rewrite Hb.
    + apply cnt_ext. intros k Hk. apply Hbit. lia.
Qed.

(** ** Bit vectors marking strict minima of prefixes *)
Definition records (f : N -> N) (v n : N) : Prop :=
  forall k, k < n -> N.testbit v k = false <-> forall m, m < k -> f k < f m.

Lemma records_query f v n q : records f v n -> n <= 128 -> q < n ->
  exists p, p <= q /\ zeros v (q + 1) = zeros v p + 1 /\ sbv_rank0 v (q + 1) = Ok (zeros v p + 1) /\
    sbv_select0 v (zeros v p) = Ok p /\ N.testbit v p = false /\ forall m, m <= q -> f p <= f m.
Proof.
  intros HR Hn Hq.
  cut (exists p, p <= q /\ N.testbit v p = false /\ zeros v (q + 1) = zeros v p + 1 /\ forall m, m <= q -> f p <= f m).
  { intros (p & H1 & H2 & H3 & H4). exists p. rewrite sbv_rank0_ok by lia. rewrite sbv_select0_ok by (auto; lia). rewrite H3. auto 10. }
  induction q as [|q IH] using N_ind1.
  - exists 0. split; [lia|]. assert (H0 : N.testbit v 0 = false) by (apply HR; [lia|intros; lia]).
    split; auto. split; [rewrite cnt_succ, H0; reflexivity|]. intros m Hm. replace m with 0 by lia. lia.
  - destruct IH as (p & H1 & H2 & H3 & H4); [lia|]. destruct (N.testbit v (q + 1)) eqn:Eb.
    + exists p. split; [lia|]. split; auto. split; [rewrite cnt_succ, Eb, H3; cbn; lia|].
      intros m Hm. destruct (N.eq_dec m (q + 1)) as [->|]; [|apply H4; lia].
      destruct (N.le_gt_cases (f p) (f (q + 1))) as [|Hlt]; auto. exfalso.
      assert (N.testbit v (q + 1) = false); [|congruence]. apply HR; [lia|]. intros m' Hm'. specialize (H4 m' ltac:(lia)). lia.
    + exists (q + 1). split; [lia|]. split; auto. split; [rewrite cnt_succ, Eb; cbn; lia|].
      pose proof (proj1 (HR (q + 1) Hq) Eb) as Hs. intros m Hm. destruct (N.eq_dec m (q + 1)) as [->|]; [lia|].
      specialize (Hs m ltac:(lia)). lia.
Qed.

Lemma set_bit_ok v i : i < 128 -> exists v', sbv_set_bit v i = Ok v' /\
  forall k, N.testbit v' k = N.testbit v k || (k =? i).
Proof.
  intros Hi. unfold sbv_set_bit. destruct (N.leb_spec i 128); [|lia]. cbn [assert bind]. destruct (N.ltb_spec i 128); [|lia].
  eexists. split; [reflexivity|]. intros k. now rewrite N.lor_spec, testbit_pow2.
Qed.

(** The state of a loop that marks strict minima: [v] is right below [i] and clear from [i] on,
    [mn] is the minimum of the first [i] values, attained at [a]. *)
Definition rec_state (f : N -> N) (v mn i : N) : Prop :=
  records f v i /\ (forall k, i <= k -> N.testbit v k = false) /\
  (forall m, m < i -> mn <= f m) /\ exists a, a < i /\ f a = mn.
Lemma rec_state_init f : rec_state f 0 (f 0) 1.
Proof.
  split; [|split; [|split]].
  - intros k Hk. split; [intros; lia|intros; apply N.bits_0].
  - intros; apply N.bits_0.
  - intros m Hm. replace m with 0 by lia. lia.
  - exists 0. split; [lia|auto].
Qed.
Lemma rec_state_keep f v mn i : rec_state f v mn i -> f i < mn -> rec_state f v (f i) (i + 1).
Proof.
  intros (H1 & H2 & H3 & a & H4 & H5) Hlt. split; [|split; [|split]].
  - intros k Hk. destruct (N.eq_dec k i) as [->|]; [|apply H1; lia].
    split; [|intros _; apply H2; lia]. intros _ m Hm. specialize (H3 m Hm). lia.
  - intros k Hk. apply H2. lia.
  - intros m Hm. destruct (N.eq_dec m i) as [->|]; [lia|]. specialize (H3 m ltac:(lia)). lia.
  - exists i. split; [lia|auto].
Qed.
Lemma rec_state_set f v v' mn i : rec_state f v mn i -> mn <= f i -> (forall k, N.testbit v' k = N.testbit v k || (k =? i)) ->
  rec_state f v' mn (i + 1).
Proof.
  intros (H1 & H2 & H3 & a & H4 & H5) Hle Hv. split; [|split; [|split]].
  - intros k Hk. rewrite Hv. destruct (N.eqb_spec k i) as [->|].
    + rewrite orb_true_r. split; [discriminate|]. intros Hs. specialize (Hs a H4). lia.
    + rewrite orb_false_r. apply H1. lia.
  - intros k Hk. rewrite Hv. destruct (N.eqb_spec k i); [lia|]. rewrite orb_false_r. apply H2. lia.
  - intros m Hm. destruct (N.eq_dec m i) as [->|]; [lia|]. apply H3. lia.
  - exists a. split; [lia|auto].
Qed.

(** ** One block *)
Section Block.
Variable block : list N.
Hypothesis Hlen : 0 < lenN block.
Hypothesis H128 : lenN block <= 128.
Local Notation B := (lenN block).
Local Notation f := (nthN 0 block).
Local Notation g := (fun r => nthN 0 block (B - 1 - r)).

Lemma prefix_loop : exists pm mn bi,
  forM (range 1 B) (0, f 0, f 0, 0) (fr_prefix_step block) = Ok (pm, mn, mn, bi) /\
  rec_state f pm mn B /\ bi < B /\ f bi = mn /\ (forall m, m < bi -> mn < f m).
Proof using Hlen H128.
  destruct (forM_range_inv (fun i st => exists pm mn bi, st = (pm, mn, mn, bi) /\ rec_state f pm mn i /\ bi < i /\ f bi = mn /\ (forall m, m < bi -> mn < f m))
              1 B (0, f 0, f 0, 0) (fr_prefix_step block)) as (st & E & pm & mn & bi & -> & H).
  - lia.
  - exists 0, (f 0), 0. split; auto. split; [apply rec_state_init|]. split; [lia|]. split; [auto|intros; lia].
  - intros i st H1 H2 (pm & mn & bi & -> & R & Hb & Ef & Hfi). unfold fr_prefix_step. rewrite (idx_ok 0) by auto. cbn [bind].
    destruct (N.ltb_spec (f i) mn) as [H|H].
    + cbn [bind]. rewrite N.mod_small by lia. eexists. split; [reflexivity|]. exists pm, (f i), i. split; auto.
      split; [now apply rec_state_keep with (mn := mn)|]. split; [lia|]. split; [auto|]. intros m Hm. destruct R as (_ & _ & R & _). specialize (R m Hm). lia.
    + destruct (set_bit_ok pm i ltac:(lia)) as (pm' & E & Hv). rewrite E. cbn [bind]. eexists. split; [reflexivity|].
      exists pm', mn, bi. split; auto. split; [now apply rec_state_set with (v := pm)|]. split; [lia|auto].
  - exists pm, mn, bi. auto.
Qed.
Lemma suffix_loop : exists sm mn,
  forM (range 2 (B + 1)) (0, f (B - 1)) (fr_suffix_step block) = Ok (sm, mn) /\ rec_state g sm mn B.
Proof using Hlen H128.
  destruct (forM_range_inv (fun i st => rec_state g (fst st) (snd st) (i - 1))
              2 (B + 1) (0, f (B - 1)) (fr_suffix_step block)) as (st & E & H).
  - lia.
  - cbn [fst snd]. change (2 - 1) with 1. replace (f (B - 1)) with (g 0) by (cbv beta; f_equal; lia). apply rec_state_init.
  - intros i [sm mn] H1 H2 R. cbn [fst snd] in R. unfold fr_suffix_step. rewrite sub_ok by lia. cbn [bind].
    rewrite (idx_ok 0) by lia. cbn [bind]. replace (i + 1 - 1) with (i - 1 + 1) by lia.
    assert (Eg : f (B - i) = g (i - 1)) by (cbv beta; f_equal; lia). rewrite Eg.
    destruct (N.ltb_spec (g (i - 1)) mn) as [H|H].
    + eexists. split; [reflexivity|]. cbn [fst snd]. exact (rec_state_keep g sm mn (i - 1) R H).
    + rewrite sub_ok by lia. cbn [bind]. destruct (set_bit_ok sm (i - 1) ltac:(lia)) as (sm' & E & Hv). rewrite E. cbn [bind].
      eexists. split; [reflexivity|]. cbn [fst snd]. exact (rec_state_set g sm sm' mn (i - 1) R H Hv).
  - destruct st as [sm mn]. cbn [fst snd] in H. exists sm, mn. split; auto. replace (B + 1 - 1) with B in H by lia. exact H.
Qed.
Lemma push_block_ok ms ids bs : exists pm sm mn bi,
  fr_push_block (ms, ids, bs) block = Ok (ms ++ [mn], ids ++ [bi], bs ++ [mkfb pm sm]) /\
  (records f pm B /\ forall k, B <= k -> N.testbit pm k = false) /\ (records g sm B /\ forall k, B <= k -> N.testbit sm k = false) /\ bi < B /\ f bi = mn /\ (forall m, m < bi -> mn < f m) /\ forall m, m < B -> mn <= f m.
Proof using Hlen H128.
  destruct prefix_loop as (pm & mn & bi & E1 & R1 & Hb & Ef & Hfi). destruct suffix_loop as (sm & mn' & E2 & R2).
  unfold fr_push_block. rewrite (idx_ok 0) by auto. cbn [bind]. rewrite E1. cbn [bind]. rewrite sub_ok by lia. cbn [bind].
  rewrite (idx_ok 0) by lia. cbn [bind]. rewrite E2. cbn [bind]. exists pm, sm, mn, bi. split; auto.
  split; [split; apply R1|]. split; [split; apply R2|]. split; auto. split; auto. split; auto. apply R1.
Qed.
End Block.

(** ** The whole structure *)
Section Fast.
Variable data : list N.
Local Notation len := (lenN data).
Local Notation NB := ((len + 127) / 128).
Local Notation D := (nthN 0 data).
Local Notation size b := (N.min 128 (len - 128 * b)).

Record block_good (b : N) (mn bi : N) (blk : fblock) : Prop := {
  bg_prefix : records (fun k => D (128 * b + k)) (fb_prefix blk) (size b);
  bg_suffix : 128 * b + 128 <= len -> records (fun r => D (128 * b + 127 - r)) (fb_suffix blk) 128;
  bg_part : records (fun r => D (128 * b + (size b - 1 - r))) (fb_suffix blk) (size b);
  bg_clear : forall k, size b <= k -> N.testbit (fb_suffix blk) k = false;
  bg_pclear : forall k, size b <= k -> N.testbit (fb_prefix blk) k = false;
  bg_idx : bi < size b;
  bg_min : D (128 * b + bi) = mn;
  bg_first : forall k, k < bi -> mn < D (128 * b + k);
  bg_le : forall k, k < size b -> mn <= D (128 * b + k)
}.
Definition blocks_good (n : N) (ms ids : list N) (bs : list fblock) : Prop :=
  lenN ms = n /\ lenN ids = n /\ lenN bs = n /\
  forall b, b < n -> block_good b (nthN 0 ms b) (nthN 0 ids b) (nthN (mkfb 0 0) bs b).

Lemma fr_blocks_ok : exists ms ids bs, forM (chunks128 data) ([], [], []) fr_push_block = Ok (ms, ids, bs) /\
  blocks_good NB ms ids bs.
Proof using.
  unfold chunks128. rewrite forM_map.
  destruct (forM_range_inv (fun b st => blocks_good b (fst (fst st)) (snd (fst st)) (snd st)) 0 NB ([], [], [])
    (fun st b => fr_push_block st (firstn 128 (skipn (N.to_nat (128 * b)) data)))) as ([[ms ids] bs] & E & H).
  - lia.
  - repeat split; auto; intros; lia.
  - intros b [[ms ids] bs] _ Hb (L1 & L2 & L3 & HG). cbn [fst snd] in *.
    change (firstn 128 (skipn (N.to_nat (128 * b)) data)) with (sliceN (128 * b) 128 data). set (blk := sliceN (128 * b) 128 data).
    assert (Hb' : 128 * b < len) by dlia.
    assert (El : lenN blk = size b) by (unfold blk, sliceN; rewrite lenN_takeN, lenN_dropN; lia).
    assert (En : forall k, k < size b -> nthN 0 blk k = D (128 * b + k)).
    { intros k Hk. unfold blk. apply nthN_sliceN. lia. }
    destruct (push_block_ok blk ltac:(lia) ltac:(lia) ms ids bs) as (pm & sm & mn & bi & E & (R1 & R1') & (R2 & R3) & H1 & H2 & H2' & H3).
    rewrite E. eexists. split; [reflexivity|]. cbn [fst snd]. unfold blocks_good. rewrite !lenN_app, L1, L2, L3.
    split; auto. split; auto. split; auto. intros b0 Hb0. rewrite !nthN_app, L1, L2, L3.
    destruct (N.ltb_spec b0 b) as [|Hge]; [now apply HG|]. replace b0 with b by lia. rewrite N.sub_diag.
    change (nthN 0 [mn] 0) with mn. change (nthN 0 [bi] 0) with bi. change (nthN (mkfb 0 0) [mkfb pm sm] 0) with (mkfb pm sm).
    rewrite El in *. split; cbn [fb_prefix fb_suffix]; auto.
    + intros k Hk. rewrite (R1 k Hk). split; intros Hs m Hm; specialize (Hs m Hm); rewrite ?En in *; auto; try lia.
    + intros Hfull k Hk. assert (Es : size b = 128) by lia. rewrite Es in *. rewrite (R2 k Hk).
      split; intros Hs m Hm; specialize (Hs m Hm); rewrite !En in * by lia.
      * replace (128 * b + 127 - k) with (128 * b + (128 - 1 - k)) by lia.
        replace (128 * b + 127 - m) with (128 * b + (128 - 1 - m)) by lia. auto.
      * replace (128 * b + 127 - k) with (128 * b + (128 - 1 - k)) in Hs by lia.
        replace (128 * b + 127 - m) with (128 * b + (128 - 1 - m)) in Hs by lia. auto.
    + intros k Hk. rewrite (R2 k Hk). split; intros Hs m Hm; specialize (Hs m Hm); rewrite !En in * by lia; exact Hs.
    + now rewrite <- En.
    + intros k Hk. rewrite <- En by lia. now apply H2'.
    + intros k Hk. rewrite <- En by auto. now apply H3.
  - exists ms, ids, bs. auto.
Qed.

Record fr_good (r : frmq) : Prop := {
  fg_data : fr_data r = data;
  fg_blocks : blocks_good NB (br_data (fr_minima r)) (fr_indices r) (fr_blocks r);
  fg_small : NB < 2 ^ 32;
  fg_minima : rows_done (br_data (fr_minima r)) (br_results (fr_minima r)) (tz_npt (lenN (br_data (fr_minima r))))
}.
Lemma fr_from_vec_ok : len < 2 ^ 40 -> NB < 2 ^ 32 -> exists r, fr_from_vec data = Ok r /\ fr_good r.
Proof using.
  intros H40 H32. unfold fr_from_vec. destruct (N.ltb_spec len (2 ^ 40)); [|lia]. cbn [assert bind].
  destruct fr_blocks_ok as (ms & ids & bs & E & HG). rewrite E. cbn [bind].
  pose proof (proj1 HG) as Hm. destruct (br_from_vec_ok ms) as (m & Em & H1 & H2); [lia|]. rewrite Em. cbn [bind].
  eexists. split; [reflexivity|]. split; cbn [fr_data fr_minima fr_indices fr_blocks]; rewrite ?H1; auto.
Qed.
Lemma fr_from_vec_panics : 2 ^ 40 <= len \/ 2 ^ 32 <= NB -> fr_from_vec data = Panic.
Proof using.
  intros H. unfold fr_from_vec. destruct (N.ltb_spec len (2 ^ 40)); [|reflexivity]. cbn [assert bind].
  destruct fr_blocks_ok as (ms & ids & bs & E & HG). rewrite E. cbn [bind].
  pose proof (proj1 HG) as Hm. unfold br_from_vec. rewrite Hm. destruct (N.ltb_spec NB (2 ^ 32)); [lia|reflexivity].
Qed.

Lemma min_index_from_ok (l : list N) : forall i best bestv (h : N -> N),
  (forall k, k < lenN l -> nthN 0 l k = h (i + k)) -> best < i -> bestv = h best -> (forall m, m < i -> h best <= h m) -> (forall m, m < best -> h best < h m) ->
  min_index_from l i best bestv < i + lenN l /\ (forall m, m < min_index_from l i best bestv -> h (min_index_from l i best bestv) < h m) /\
  forall m, m < i + lenN l -> h (min_index_from l i best bestv) <= h m.
Proof using.
  induction l as [|x l IH]; intros i best bestv h Hh Hb Hv Hm Hf; cbn [min_index_from].
  - change (lenN (@nil N)) with 0. rewrite N.add_0_r. auto.
  - assert (Hx : x = h i). { specialize (Hh 0). rewrite lenN_cons, N.add_0_r in Hh. apply Hh. lia. }
    assert (Hh' : forall k, k < lenN l -> nthN 0 l k = h (i + 1 + k)).
    { intros k Hk. specialize (Hh (k + 1)). rewrite lenN_cons in Hh. rewrite nthN_cons in Hh.
      destruct (N.eqb_spec (k + 1) 0); [lia|]. replace (k + 1 - 1) with k in Hh by lia. rewrite Hh by lia. f_equal. lia. }
    replace (i + lenN (x :: l)) with (i + 1 + lenN l) by (rewrite lenN_cons; lia).
    destruct (N.ltb_spec x bestv) as [H|H]; apply IH; auto; try lia.
    + intros m Hm'. destruct (N.eq_dec m i) as [->|]; [lia|]. specialize (Hm m ltac:(lia)). lia.
    + intros m Hm'. specialize (Hm m Hm'). lia.
    + intros m Hm'. destruct (N.eq_dec m i) as [->|]; [lia|]. apply Hm. lia.
Qed.
Lemma min_index_ok (l : list N) : 0 < lenN l ->
  exists k, min_index l = Ok k /\ k < lenN l /\ (forall m, m < k -> nthN 0 l k < nthN 0 l m) /\ forall m, m < lenN l -> nthN 0 l k <= nthN 0 l m.
Proof using.
  destruct l as [|x l]; intros H; [cbn in H; lia|]. cbn [min_index]. eexists. split; [reflexivity|].
  rewrite lenN_cons, (N.add_comm (lenN l)). apply min_index_from_ok; auto; try lia.
  - intros k Hk. rewrite nthN_cons. destruct (N.eqb_spec (1 + k) 0); [lia|]. f_equal. lia.
  - intros m Hm. replace m with 0 by lia. lia.
Qed.

Lemma suffix_rank_mono v a b : a <= b -> zeros v a <= zeros v b.
Proof using. apply cnt_mono. Qed.

(** Which minimum a query takes. Inside one block of 128 it is the first. Otherwise it is the last
    one in the block of [i]; failing that the first one in the block of [j]; failing that the first
    one of a block between them, chosen like [BinaryRmq] chooses among the block minima. *)
Definition is_first (i k : N) : Prop := forall m, i <= m -> m < k -> D k < D m.
Definition middle_rule (bi bj k : N) : Prop :=
  let b := k / 128 in
  let h := bi + 1 + 2 ^ N.log2 (bj - 1 - (bi + 1)) - 1 in
  is_first (128 * b) k /\
  (b <= h -> forall m, b < m / 128 -> m / 128 <= h -> D k < D m) /\
  (h < b -> (forall m, bi < m / 128 -> m / 128 <= h -> D k < D m) /\ (forall m, b < m / 128 -> m / 128 < bj -> D k < D m)).
Definition fast_rule (i j k : N) : Prop :=
  let e := 128 * (i / 128) + 127 in
  let s := 128 * (j / 128) in
  if i / 128 =? j / 128 then is_first i k
  else
    (k <= e -> is_last data e k) /\
    (e < k -> forall m, i <= m -> m <= e -> D k < D m) /\
    (s <= k -> is_first s k) /\
    (e < k -> k < s -> (forall m, s <= m -> m <= j -> D k < D m) /\ middle_rule (i / 128) (j / 128) k).
Lemma fr_range_min_tie r i j : fr_good r -> i <= j -> j < len ->
  exists k, fr_range_min r i j = Ok k /\ is_argmin data i j k /\ fast_rule i j k.
Proof using.
  intros [Gd (L1 & L2 & L3 & HG) Gs Gm] Hij Hj. unfold fr_range_min, fast_rule. rewrite Gd.
  pose proof (N.div_mod i 128 ltac:(lia)) as Ei. pose proof (N.mod_lt i 128 ltac:(lia)) as Li.
  pose proof (N.div_mod j 128 ltac:(lia)) as Ej. pose proof (N.mod_lt j 128 ltac:(lia)) as Lj.
  set (bi := i / 128) in *. set (bj := j / 128) in *. set (ri := i mod 128) in *. set (rj := j mod 128) in *.
  assert (Hbij : bi <= bj) by lia.
  assert (Hbj : bj < NB) by dlia. assert (Hbi : bi < NB) by lia.
  pose proof (HG bi Hbi) as Gi. pose proof (HG bj Hbj) as Gj.
  destruct (records_query _ _ _ rj (bg_prefix _ _ _ _ Gj)) as (pj & P1 & P2 & P3 & P4 & P6 & P5); [lia|lia|].
  destruct (N.eqb_spec bi bj) as [Eb|Eb].
  - rewrite <- Eb in *. rewrite (idx_ok (mkfb 0 0)) by lia. cbn [bind].
    set (V := fb_prefix (nthN (mkfb 0 0) (fr_blocks r) bi)) in *. set (S := fb_suffix (nthN (mkfb 0 0) (fr_blocks r) bi)) in *.
    rewrite sbv_rank0_ok by lia. cbn [bind]. rewrite P3. cbn [bind].
    destruct (N.ltb_spec (zeros V (ri + 1)) (zeros V pj + 1)) as [Hlt|Hge].
    + rewrite N.add_sub, P4. cbn [bind]. eexists. split; [reflexivity|].
      assert (Hp : ri < pj).
      { destruct (N.le_gt_cases pj ri) as [H|]; auto. exfalso. pose proof (suffix_rank_mono V (pj + 1) (ri + 1) ltac:(lia)) as Hm.
        rewrite cnt_succ, P6 in Hm. cbn [negb] in Hm. lia. }
      replace (bi * 128 + pj) with (128 * bi + pj) by lia. split.
      * repeat split; try lia. intros m M1 M2. specialize (P5 (m - 128 * bi) ltac:(lia)). replace (128 * bi + (m - 128 * bi)) with m in P5 by lia. exact P5.
      * intros m M1 M2. pose proof (proj1 (bg_prefix _ _ _ _ Gi pj ltac:(lia)) P6 (m - 128 * bi) ltac:(lia)) as Q. cbv beta in Q.
        replace (128 * bi + (m - 128 * bi)) with m in Q by lia. exact Q.
    + rewrite !sbv_rank0_ok by lia. cbn [bind].
      pose proof (suffix_rank_mono S (128 - rj) (128 - ri) ltac:(lia)).
      destruct (N.ltb_spec (zeros S (128 - ri)) (zeros S (128 - rj))); [lia|].
      rewrite slice_chk_ok by lia. cbn [bind].
      assert (El : lenN (sliceN i (j + 1 - i) data) = j + 1 - i) by (apply lenN_sliceN; lia).
      destruct (min_index_ok (sliceN i (j + 1 - i) data)) as (k & Ek & K1 & K3 & K2); [lia|].
      rewrite Ek. cbn [bind]. exists (i + k). split; auto. split.
      * repeat split; try lia. intros m M1 M2. specialize (K2 (m - i) ltac:(lia)). rewrite !nthN_sliceN in K2 by lia.
        now replace (i + (m - i)) with m in K2 by lia.
      * intros m M1 M2. specialize (K3 (m - i) ltac:(lia)). rewrite !nthN_sliceN in K3 by lia.
        now replace (i + (m - i)) with m in K3 by lia.
  - assert (Hfull : 128 * bi + 128 <= len) by lia.
    destruct (records_query _ _ _ (127 - ri) (bg_suffix _ _ _ _ Gi Hfull)) as (ps & S1 & S2 & S3 & S4 & S6 & S5); [lia|lia|].
    replace (127 - ri + 1) with (128 - ri) in S3 by lia.
    rewrite (idx_ok (mkfb 0 0)) by lia. cbn [bind]. rewrite S3. cbn [bind].
    rewrite sub_ok by lia. cbn [bind]. rewrite N.add_sub, S4. cbn [bind]. rewrite sub_ok by lia. cbn [bind]. rewrite sub_ok by lia. cbn [bind].
    rewrite (idx_ok (mkfb 0 0)) by lia. cbn [bind]. rewrite P3. cbn [bind]. rewrite sub_ok by lia. cbn [bind]. rewrite N.add_sub, P4. cbn [bind].
    set (ki := (bi + 1) * 128 - ps - 1). set (kj := bj * 128 + pj).
    assert (Hki : i <= ki /\ ki <= 128 * bi + 127) by lia. assert (Hkj : 128 * bj <= kj /\ kj <= j) by lia.
    assert (Mi : forall m, i <= m -> m <= 128 * bi + 127 -> D ki <= D m).
    { intros m M1 M2. specialize (S5 (128 * bi + 127 - m) ltac:(lia)). cbv beta in S5.
      replace (128 * bi + 127 - (128 * bi + 127 - m)) with m in S5 by lia. now replace (128 * bi + 127 - ps) with ki in S5 by lia. }
    assert (Mj : forall m, 128 * bj <= m -> m <= j -> D kj <= D m).
    { intros m M1 M2. specialize (P5 (m - 128 * bj) ltac:(lia)). cbv beta in P5.
      replace (128 * bj + (m - 128 * bj)) with m in P5 by lia. now replace (128 * bj + pj) with kj in P5 by lia. }
    assert (Li' : is_last data (128 * bi + 127) ki).
    { intros m M1 M2. pose proof (proj1 (bg_suffix _ _ _ _ Gi Hfull ps ltac:(lia)) S6 (128 * bi + 127 - m) ltac:(lia)) as Q. cbv beta in Q.
      replace (128 * bi + 127 - (128 * bi + 127 - m)) with m in Q by lia. now replace (128 * bi + 127 - ps) with ki in Q by lia. }
    assert (Fj' : is_first (128 * bj) kj).
    { intros m M1 M2. pose proof (proj1 (bg_prefix _ _ _ _ Gj pj ltac:(lia)) P6 (m - 128 * bj) ltac:(lia)) as Q. cbv beta in Q.
      replace (128 * bj + (m - 128 * bj)) with m in Q by lia. now replace (128 * bj + pj) with kj in Q by lia. }
    assert (Eij : min_by_data data ki kj = Ok (if D kj <? D ki then kj else ki)).
    { unfold min_by_data. rewrite !(idx_ok 0) by lia. reflexivity. }
    clearbody ki kj. clear S1 S2 S3 S4 S5 S6 P1 P2 P3 P4 P5 P6 Gi Gj Hfull.
    destruct (N.ltb_spec (bi + 1) bj) as [Hmid|Hmid].
    + destruct (br_range_min_tie (br_data (fr_minima r)) ltac:(lia) (fr_minima r) (bi + 1) (bj - 1) eq_refl Gm) as (m & Em & (A1 & A2 & A3 & A4) & T1 & T2); [lia|lia|].
      rewrite Em. cbn [bind]. rewrite (idx_ok 0) by lia. cbn [bind]. rewrite Eij. cbn [bind].
      pose proof (HG m ltac:(lia)) as Gmid. pose proof (bg_idx _ _ _ _ Gmid) as Hx. pose proof (bg_min _ _ _ _ Gmid) as Hy.
      set (km := m * 128 + nthN 0 (fr_indices r) m). replace (128 * m + nthN 0 (fr_indices r) m) with km in Hy by (unfold km; lia).
      assert (Hkm : 128 * bi + 128 <= km /\ km < 128 * bj) by lia.
      assert (Mm : forall x, 128 * bi + 128 <= x -> x < 128 * bj -> D km <= D x).
      { intros x X1 X2. rewrite Hy. pose proof (N.div_mod x 128 ltac:(lia)) as Ex. pose proof (N.mod_lt x 128 ltac:(lia)) as Lx.
        specialize (A4 (x / 128) ltac:(lia) ltac:(lia)). pose proof (HG (x / 128) ltac:(lia)) as Gx.
        pose proof (bg_le _ _ _ _ Gx (x mod 128) ltac:(lia)) as Hle. rewrite <- Ex in Hle. lia. }
      assert (Hc : (if D kj <? D ki then kj else ki) < len) by (destruct (_ <? _); lia).
      unfold min_by_data. rewrite !(idx_ok 0) by lia. cbn [bind]. eexists. split; [reflexivity|].
      assert (Hall : forall x, i <= x -> x <= j -> D ki <= D x \/ D kj <= D x \/ D km <= D x).
      { intros x X1 X2. destruct (N.le_gt_cases x (128 * bi + 127)); [left; apply Mi; lia|].
        destruct (N.le_gt_cases (128 * bj) x); [right; left; apply Mj; lia|right; right; apply Mm; lia]. }
      split.
      { destruct (N.ltb_spec (D kj) (D ki)).
        * destruct (N.ltb_spec (D km) (D kj)); repeat split; try lia; intros x X1 X2; specialize (Hall x X1 X2); lia.
        * destruct (N.ltb_spec (D km) (D ki)); repeat split; try lia; intros x X1 X2; specialize (Hall x X1 X2); lia. }
      assert (Mrule : middle_rule bi bj km).
      { assert (Ekm : km / 128 = m) by (unfold km; rewrite N.div_add_l, N.div_small; lia). unfold middle_rule. rewrite Ekm.
        assert (Hh' : bi + 1 + 2 ^ N.log2 (bj - 1 - (bi + 1)) - 1 <= bj - 1).
        { destruct (N.eq_dec (bj - 1 - (bi + 1)) 0) as [->|E0]; [cbn; lia|]. pose proof (proj1 (N.log2_spec (bj - 1 - (bi + 1)) ltac:(lia))). lia. }
        set (h := bi + 1 + 2 ^ N.log2 (bj - 1 - (bi + 1)) - 1) in *. clearbody h.
        assert (Hblk : forall x, x < len -> nthN 0 (br_data (fr_minima r)) m < nthN 0 (br_data (fr_minima r)) (x / 128) -> x / 128 < NB -> D km < D x).
        { intros x Hxl Hlt HN. rewrite Hy. pose proof (N.div_mod x 128 ltac:(lia)) as Ex. pose proof (N.mod_lt x 128 ltac:(lia)) as Lx.
          pose proof (bg_le _ _ _ _ (HG (x / 128) HN) (x mod 128) ltac:(lia)) as Hle. rewrite <- Ex in Hle. lia. }
        assert (Hin : forall x, x / 128 < bj -> x < len) by (intros x Hx'; pose proof (N.div_mod x 128 ltac:(lia)); pose proof (N.mod_lt x 128 ltac:(lia)); lia).
        split; [|split].
        - intros x X1 X2. rewrite Hy. pose proof (bg_first _ _ _ _ Gmid (x - 128 * m) ltac:(lia)) as Q. now replace (128 * m + (x - 128 * m)) with x in Q by lia.
        - intros Hh x X1 X2. apply Hblk; [apply Hin; lia| |lia]. apply T1; auto.
        - intros Hh. destruct (T2 Hh) as [U1 U2]. split; intros x X1 X2; (apply Hblk; [apply Hin; lia| |lia]); [apply U1; lia|apply U2; lia]. }
      destruct (N.ltb_spec (D kj) (D ki)).
      * destruct (N.ltb_spec (D km) (D kj)); (split; [intros; lia|]); (split; [intros _ x X1 X2; specialize (Mi x X1 X2); lia|]).
        -- split; [intros; lia|]. intros _ _. split; auto. intros x X1 X2. specialize (Mj x X1 X2). lia.
        -- split; [intros _; exact Fj'|intros; lia].
      * destruct (N.ltb_spec (D km) (D ki)).
        -- split; [intros; lia|]. split; [intros _ x X1 X2; specialize (Mi x X1 X2); lia|]. split; [intros; lia|].
           intros _ _. split; auto. intros x X1 X2. specialize (Mj x X1 X2). lia.
        -- split; [intros _; exact Li'|]. split; [intros; lia|]. split; intros; lia.
    + rewrite Eij. eexists. split; [reflexivity|].
      assert (Hall : forall x, i <= x -> x <= j -> D ki <= D x \/ D kj <= D x).
      { intros x X1 X2. destruct (N.le_gt_cases x (128 * bi + 127)); [left; apply Mi; lia|right; apply Mj; lia]. }
      split; [destruct (N.ltb_spec (D kj) (D ki)); repeat split; try lia; intros x X1 X2; specialize (Hall x X1 X2); lia|].
      destruct (N.ltb_spec (D kj) (D ki)).
      * split; [intros; lia|]. split; [intros _ x X1 X2; specialize (Mi x X1 X2); lia|]. split; [intros _; exact Fj'|intros; lia].
      * split; [intros _; exact Li'|]. split; [intros; lia|]. split; intros; lia.
Qed.
Lemma fr_range_min_ok r i j : fr_good r -> i <= j -> j < len ->
  exists k, fr_range_min r i j = Ok k /\ is_argmin data i j k.
Proof using. intros G H1 H2. destruct (fr_range_min_tie r i j G H1 H2) as (k & E & A & _). eauto. Qed.
End Fast.
