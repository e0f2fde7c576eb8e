(** * C109: [u64] queries of wavelet matrices with elements wider than a word, and range statistics
    of ranges out of bounds. *)
From Coq Require Import Permutation Sorting.Sorted.
From Verif Require Import Base Spec BaseFacts WordFacts BitVecModel BitVecProofs BitVecProofs2 RsVecModel RsVecProofs RsEqProofs PropsRsVec
  WaveletModel WaveletProofs WaveletOrder WaveletBuild WaveletCount WaveletQuery WaveletAnswer PropsWavelet PropsRelease PropsWaveletUnchecked.

(** ** The low word is delivered. *)
Lemma write_low q : forall t, t < 2 ^ 64 ->
  forM q t (fun t b => Ok (N.lor (shl64 t 1) (bitN b))) = Ok ((t * 2 ^ lenN q + mval q) mod 2 ^ 64).
Proof.
  induction q as [|b q IH]; intros t Ht; cbn [forM bind].
  - cbn [mval]. change (lenN (@nil bool)) with 0. rewrite N.pow_0_r, N.mul_1_r, N.add_0_r, N.mod_small by auto. reflexivity.
  - assert (E : N.lor (shl64 t 1) (bitN b) = (2 * t + bitN b) mod 2 ^ 64).
    { apply N.bits_inj. intros i. rewrite N.lor_spec. unfold shl64. change U64 with (2 ^ 64).
      rewrite N.shiftl_mul_pow2. change (2 ^ 1) with 2. rewrite (N.mul_comm t).
      destruct (N.ltb_spec i 64) as [L|L].
      - rewrite !N.mod_pow2_bits_low by auto. destruct b; cbn [bitN].
        + destruct (N.eq_dec i 0) as [->|Hi].
          * rewrite N.testbit_even_0, N.testbit_odd_0. reflexivity.
          * replace i with (N.succ (N.pred i)) by lia. rewrite N.testbit_even_succ, N.testbit_odd_succ by lia.
            replace (N.testbit 1 (N.succ (N.pred i))) with false; [apply orb_false_r|].
            symmetry. apply N.bits_above_log2. cbn. lia.
        + now rewrite N.add_0_r, N.bits_0, orb_false_r.
      - rewrite !N.mod_pow2_bits_high by auto. destruct b; cbn [bitN orb]; [|apply N.bits_0].
        apply N.bits_above_log2. cbn. lia. }
    rewrite E, IH by (apply N.mod_lt; discriminate). f_equal. cbn [mval]. rewrite lenN_cons', N.add_1_r, N.pow_succ_r'.
    rewrite <- N.add_mod_idemp_l by discriminate. rewrite N.mul_mod_idemp_l by discriminate.
    rewrite N.add_mod_idemp_l by discriminate. f_equal. lia.
Qed.
Theorem C109_get w l k i x : wm_built w l k -> getN l i = Some x -> wm_get_u64_unchecked w i = Ok (x mod 2 ^ 64).
Proof.
  intros Hb Hi. pose proof (wm_built_ok _ _ _ Hb) as H. destruct (getN_Some_inv _ _ _ Hi) as [Hlt _].
  destruct (getN_split l i Hlt) as (S1 & x' & S3 & E & Hl & Hx). rewrite Hi in Hx. injection Hx as <-.
  pose proof (wo_enc _ _ _ H) as He. rewrite E, map_app in He. cbn [map] in He. unfold wm_get_u64_unchecked.
  replace i with (lenN (map (word_of k) S1)) by (rewrite lenN_map; auto). rewrite (reconstruct_ok _ _ _ _ _ _ He).
  rewrite write_low by reflexivity. cbn [N.mul N.add]. rewrite mval_word_of. do 2 f_equal. apply N.mod_small.
  pose proof (wo_small _ _ _ H) as Hs. rewrite Forall_forall in Hs. apply Hs. rewrite E. apply in_elt.
Qed.

(** ** Symbols of one word cannot be compared with wider elements: the debug build panics. *)
Theorem C109_rank_select w l k a b s : wm_built w l k -> 64 < k ->
  wm_rank_range_u64_unchecked w a b s = Panic /\ wm_rank_offset_u64_unchecked w a b s = Panic /\
  wm_rank_u64_unchecked w b s = Panic /\ wm_select_offset_u64_unchecked w a b s = Panic /\
  wm_select_u64_unchecked w b s = Panic.
Proof.
  intros Hb Hk. pose proof (wm_built_ok _ _ _ Hb) as H. pose proof (wo_bits _ _ _ H) as Hw.
  assert (Hr : rd_u64 w s 0 = Panic).
  { unfold rd_u64, sym_pos. rewrite (wm_bits_ok _ _ _ H), (sub_ok k) by lia. cbn [bind]. rewrite sub_ok by lia. cbn [bind].
    unfold shr64_chk. destruct (N.ltb_spec (k - 1 - 0) 64); [lia|reflexivity]. }
  unfold wm_rank_offset_u64_unchecked, wm_rank_u64_unchecked, wm_rank_range_u64_unchecked,
    wm_select_u64_unchecked, wm_select_offset_u64_unchecked, wm_select_loop.
  destruct w as [|d w]; [cbn in Hw; lia|]. cbn [wm_rank_loop wm_start_loop]. rewrite Hr. cbn [bind]. repeat split; reflexivity.
Qed.
Theorem C109_quantile w l k a b i : wm_built w l k -> 64 < k ->
  wm_quantile_u64_unchecked w a b i = Panic /\ wm_get_sorted_u64_unchecked w i = Panic /\
  wm_range_min_u64_unchecked w a b = Panic /\ wm_range_max_u64_unchecked w a b = Panic /\
  wm_range_median_u64_unchecked w a b = Panic.
Proof.
  intros Hb Hk. pose proof (wm_built_ok _ _ _ Hb) as H.
  assert (Q : forall a b i, wm_quantile_u64_unchecked w a b i = Panic).
  { intros. unfold wm_quantile_u64_unchecked, wm_partial_quantile_u64. rewrite (wm_bits_ok _ _ _ H).
    destruct (N.leb_spec k 64); [lia|reflexivity]. }
  unfold wm_get_sorted_u64_unchecked, wm_range_min_u64_unchecked, wm_range_max_u64_unchecked, wm_range_median_u64_unchecked.
  rewrite !Q. split; [auto|]. split; [auto|]. split; [auto|]. unfold sub. split.
  - destruct (a <=? b); cbn [bind]; auto. destruct (1 <=? b - a); cbn [bind]; auto.
  - destruct (1 <=? b); cbn [bind]; auto. destruct (a <=? b - 1); cbn [bind]; auto.
Qed.

(** The checked queries answer [None] for all arguments. *)
Theorem C109_checked w l k a b s : wm_built w l k -> 64 < k ->
  wm_get_u64 w b = Ok None /\
  wm_rank_range_u64 w a b s = Ok None /\ wm_rank_offset_u64 w a b s = Ok None /\ wm_rank_u64 w b s = Ok None /\
  wm_select_offset_u64 w a b s = Ok None /\ wm_select_u64 w b s = Ok None /\
  wm_quantile_u64 w a b s = Ok None /\ wm_get_sorted_u64 w b = Ok None /\
  wm_range_min_u64 w a b = Ok None /\ wm_range_max_u64 w a b = Ok None /\ wm_range_median_u64 w a b = Ok None /\
  wm_predecessor_u64 w a b s = Ok None /\ wm_successor_u64 w a b s = Ok None.
Proof.
  intros Hb Hk. pose proof (wm_built_ok _ _ _ Hb) as H.
  assert (E : (64 <? wm_bits w) = true) by (rewrite (wm_bits_ok _ _ _ H); apply N.ltb_lt; auto).
  unfold wm_range_min_u64, wm_range_max_u64, wm_range_median_u64, wm_quantile_u64, wm_get_u64, wm_rank_range_u64, wm_rank_offset_u64,
    wm_rank_u64, wm_select_offset_u64, wm_select_u64, wm_get_sorted_u64, wm_predecessor_u64, wm_successor_u64.
  rewrite E, !orb_true_r. cbn [orb].
  do 9 (split; [reflexivity|]). split; [|repeat split; reflexivity].
  destruct (N.ltb_spec a b); cbn [negb]; [|reflexivity]. rewrite (sub_ok b) by lia. cbn [bind]. rewrite sub_ok by lia. reflexivity.
Qed.

(** ** Ranges that are empty, inverted or end beyond the sequence. *)
Theorem C109_ranges w l k a b : wm_built w l k -> ~ (a < b /\ b <= lenN l) ->
  wm_range_min_unchecked w a b = Panic /\ wm_range_min_u64_unchecked w a b = Panic /\
  wm_range_max_unchecked w a b = Panic /\ wm_range_max_u64_unchecked w a b = Panic /\
  wm_range_median_unchecked w a b = Panic /\ wm_range_median_u64_unchecked w a b = Panic.
Proof.
  intros Hb Hn. assert (Q : forall i, wm_quantile_unchecked w a b i = Panic /\ wm_quantile_u64_unchecked w a b i = Panic).
  { intros i. exact (proj2 (C104_quantile w l k a b i Hb) Hn). }
  unfold wm_range_min_unchecked, wm_range_min_u64_unchecked, wm_range_max_unchecked, wm_range_max_u64_unchecked,
    wm_range_median_unchecked, wm_range_median_u64_unchecked, sub.
  split; [apply Q|]. split; [apply Q|].
  split; [|split; [|split]].
  1,2: destruct (a <=? b); cbn [bind]; [destruct (1 <=? b - a); cbn [bind]; [apply Q|reflexivity]|reflexivity].
  1,2: destruct (1 <=? b); cbn [bind]; [destruct (a <=? b - 1); cbn [bind]; [apply Q|reflexivity]|reflexivity].
Qed.

(** A matrix with elements of 65 bits: 2^64 + 5 and 3. *)
Definition ex_wide : bitvec := match forM [(5, 64); (1, 1); (3, 64); (0, 1)] bv_new (fun bv p => bv_append_bits bv (fst p) (snd p)) with Ok v => v | _ => bv_new end.
Definition ex_wm65 : wavelet := match wm_from_bit_vec ex_wide 65 with Ok w => w | _ => [] end.
Example C109_ex : wm_get_u64_unchecked ex_wm65 0 = Ok 5 /\ wm_get_u64_unchecked ex_wm65 1 = Ok 3 /\
  wm_rank_u64_unchecked ex_wm65 2 3 = Panic /\ wm_range_min_u64_unchecked ex_wm65 0 2 = Panic /\
  wm_rank_u64 ex_wm65 2 3 = Ok None /\ wm_range_median_unchecked ex_wm 3 3 = Panic /\ wm_range_max_unchecked ex_wm 3 9 = Panic.
Proof. vm_compute. repeat split. Qed.
