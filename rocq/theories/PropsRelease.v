(** * Properties C77-C81: release builds, where the debug build panics on an overflow. *)
From Coq Require Import Permutation Sorting.Sorted.
From Verif Require Import Base Spec BaseFacts WordFacts BitVecModel BitVecProofs BitVecProofs2 PropsBitVec RsVecModel PdepProofs RsVecProofs RsVecSelect PropsRsVec
  IterSpec IterFacts RsIterModel RsIterProofs GenIterModel GenIterProofs PropsIter RmqModel RmqProofs FastRmqProofs PropsRmq PropsRmqTies PropsFastInverted PropsRmqBounds
  WaveletModel WaveletProofs WaveletOrder WaveletBuild WaveletCount WaveletQuery WaveletAnswer PropsWavelet PropsWaveletBuild ReleaseModel.

Lemma wsub_ge a b : b <= a -> a < 2 ^ 64 -> wrapping_sub a b = a - b.
Proof. intros H1 H2. unfold wrapping_sub. change U64 with (2 ^ 64). replace (a + 2 ^ 64 - b) with (a - b + 1 * 2 ^ 64) by lia. rewrite N.mod_add by lia. apply N.mod_small. lia. Qed.
Lemma wsub_lt a b : a < b -> b <= 2 ^ 64 -> wrapping_sub a b = 2 ^ 64 - (b - a).
Proof. intros H1 H2. unfold wrapping_sub. change U64 with (2 ^ 64). rewrite N.mod_small by lia. lia. Qed.
Lemma wadd_lt a b : a + b < 2 ^ 64 -> wrapping_add a b = a + b.
Proof. intros H. apply N.mod_small. exact H. Qed.
Lemma wadd_ge a b : 2 ^ 64 <= a + b -> a < 2 ^ 64 -> b < 2 ^ 64 -> wrapping_add a b = a + b - 2 ^ 64.
Proof. intros H1 H2 H3. unfold wrapping_add. change U64 with (2 ^ 64). replace (a + b) with (a + b - 2 ^ 64 + 1 * 2 ^ 64) at 1 by lia. rewrite N.mod_add by lia. apply N.mod_small. lia. Qed.

(** ** C77: wavelet queries on inverted ranges. *)
Lemma rank_loop_rel_swap rd ds : forall level a b c, wm_rank_loop rd ds level b a = Ok c -> 
  exists x y, wm_rank_loop_rel rd ds level a b = Ok (wrapping_sub y x) /\ y <= x /\ c = x - y.
Proof.
  induction ds as [|d ds IH]; intros level a b c E; cbn [wm_rank_loop wm_rank_loop_rel] in *.
  - exists a, b. unfold sub in E. destruct (N.leb_spec b a); [|discriminate]. injection E as <-. auto.
  - destruct (rd level) as [bit| |]; cbn [bind] in *; try discriminate. destruct (wm_down d bit b) as [b'| |]; cbn [bind] in *; try discriminate.
    destruct (wm_down d bit a) as [a'| |]; cbn [bind] in *; try discriminate. now apply IH.
Qed.
Lemma wsub_diff x y c : y <= x -> c = x - y -> c < 2 ^ 64 -> wrapping_sub y x = (2 ^ 64 - c) mod 2 ^ 64.
Proof. intros H1 H2 H3. unfold wrapping_sub. change U64 with (2 ^ 64). f_equal. lia. Qed.
Lemma occurrences_le s m : occurrences s m <= lenN m.
Proof. unfold occurrences. induction m as [|x m IH]; cbn [filter]; [lia|]. destruct (_ =? _); rewrite ?lenN_cons; lia. Qed.
Theorem C77_rank_range w l k a b : wm_built w l k -> lenN l < 2 ^ 64 -> b < a -> a < lenN l ->
  (forall s, wf s -> lenN (bits s) = k ->
     wm_rank_range_rel w a b s = Ok (Some ((2 ^ 64 - occurrences (value (bits s)) (sliceN b (a - b) l)) mod 2 ^ 64))) /\
  (forall s, k <= 64 -> s < 2 ^ k ->
     wm_rank_range_u64_rel w a b s = Ok (Some ((2 ^ 64 - occurrences s (sliceN b (a - b) l)) mod 2 ^ 64))).
Proof.
  intros Hb Hl H1 H2. destruct (len_bits_eqs _ _ _ Hb) as [E1 E2].
  assert (Ho : forall s, occurrences s (sliceN b (a - b) l) < 2 ^ 64).
  { intros s. pose proof (occurrences_le s (sliceN b (a - b) l)) as H. rewrite lenN_sliceN in H by lia. lia. }
  split.
  - intros s Hs Hk. unfold wm_rank_range_rel. rewrite E1, E2, <- lenN_bits, Hk, N.eqb_refl. destruct (N.leb_spec (lenN l) a), (N.ltb_spec (lenN l) b); try lia. cbn [orb negb].
    destruct (rank_loop_rel_swap _ _ _ _ _ _ (rank_bv_any w l k Hb b a s ltac:(lia) ltac:(lia) Hs Hk)) as (x & y & E & Hx & Hc).
    rewrite E. cbn [bind]. now rewrite (wsub_diff x y _ Hx Hc (Ho _)).
  - intros s Hk Hs. unfold wm_rank_range_u64_rel. rewrite E1, E2. destruct (N.leb_spec (lenN l) a), (N.ltb_spec (lenN l) b), (N.ltb_spec 64 k); try lia. cbn [orb negb].
    destruct (rank_loop_rel_swap _ _ _ _ _ _ (rank_u64_any w l k Hb b a s ltac:(lia) ltac:(lia) Hk)) as (x & y & E & Hx & Hc).
    rewrite E. cbn [bind]. rewrite (wsub_diff x y _ Hx Hc (Ho _)). now rewrite (N.mod_small s) by auto.
Qed.

Lemma cnt_lip f a b : a <= b -> cnt f a <= cnt f b /\ cnt f b - cnt f a <= b - a.
Proof. intros H. replace b with (a + (b - a)) by lia. set (m := b - a). clearbody m. clear. induction m as [|m IH] using N.peano_ind; [rewrite N.add_0_r; lia|].
  replace (a + N.succ m) with (a + m + 1) by lia. rewrite cnt_succ. destruct (f (a + m)); lia. Qed.
Lemma quantile_loop_rel_swap {T} (wr : N -> N -> T -> res T) ds : forall S level a b k t, enc ds S -> lenN S < 2 ^ 64 ->
  b < a -> a <= lenN S -> k < 2 ^ 64 - (a - b) ->
  wm_quantile_loop_rel wr ds level a b k t = wm_quantile_loop wr ds level b a 0 t.
Proof.
  induction ds as [|d ds IH]; intros S level a b k t HE HS Hba Ha Hk; [reflexivity|]. cbn [wm_quantile_loop wm_quantile_loop_rel].
  destruct HE as (_ & L & HE). rewrite !(lv_r0 _ _ L). cbn [bind].
  assert (HB : lenN (map hdb S) = lenN S) by apply lenN_map. set (B := map hdb S) in *.
  rewrite !(rank_spec_cnt false false) by lia. pose proof (lv_rank0 _ _ L) as H0. rewrite <- (rank_spec_all false B (lenN B)) in H0 by lia.
  rewrite (rank_spec_cnt false false) in H0 by lia. set (f := fun i => Bool.eqb (nthN false B i) false) in *.
  pose proof (cnt_lip f b a ltac:(lia)) as [M1 M2]. pose proof (cnt_lip f a (lenN B) ltac:(lia)) as [M3 M4].
  pose proof (cnt_le f b). pose proof (cnt_le f a). rewrite (sub_ok (cnt f a)) by auto. cbn [bind].
  assert (HP : lenN (part S) = lenN S) by apply lenN_part.
  destruct (N.eq_dec (cnt f a) (cnt f b)) as [Eq|Ne].
  - rewrite Eq, N.sub_diag. rewrite (wsub_ge (cnt f b) (cnt f b)) by lia. rewrite N.sub_diag. change (0 <? 0) with false.
    destruct (N.ltb_spec k 0); [lia|]. cbn beta iota. destruct (wr 1 level t) as [t'| |]; cbn [bind]; auto.
    rewrite (wsub_ge k 0) by lia. rewrite N.sub_0_r. rewrite (sub_ok 0 0) by lia. cbn [bind]. rewrite (sub_ok b), (sub_ok a) by lia. cbn [bind].
    rewrite (wsub_ge a), (wsub_ge b) by lia. rewrite !wadd_lt by lia. apply (IH (part S)); auto; lia.
  - rewrite wsub_lt by lia. destruct (N.ltb_spec k (2 ^ 64 - (cnt f a - cnt f b))); [|lia]. destruct (N.ltb_spec 0 (cnt f a - cnt f b)); [|lia].
    destruct (wr 0 level t) as [t'| |]; cbn [bind]; auto. apply (IH (part S)); auto; lia.
Qed.
(** A quantile of an inverted range is the minimum of the range with its bounds swapped. *)
Theorem C77_quantile w l k a b i : wm_built w l k -> lenN l < 2 ^ 64 -> b < a -> a < lenN l -> i < 2 ^ 64 ->
  exists m, In m (sliceN b (a - b) l) /\ (forall x, In x (sliceN b (a - b) l) -> m <= x) /\
    wm_quantile_rel w a b i = Ok (if i <? 2 ^ 64 - (a - b) then Some (bv_of k m) else None) /\
    (k <= 64 -> wm_quantile_u64_rel w a b i = Ok (if i <? 2 ^ 64 - (a - b) then Some m else None)).
Proof.
  intros Hb Hl H1 H2 Hi. destruct (sorted_exists (sliceN b (a - b) l)) as (sl & Hp & Hs). destruct (len_bits_eqs _ _ _ Hb) as [E1 E2].
  pose proof (perm_len _ _ Hp) as HL. rewrite lenN_sliceN in HL by lia. destruct sl as [|m sl]; [cbn in HL; lia|].
  exists m. split; [apply (Permutation_in _ Hp); now left|]. split.
  { intros x Hx. apply (Permutation_in _ (Permutation_sym Hp)) in Hx. apply Sorted_StronglySorted in Hs; [|intros ? ? ?; apply N.le_trans].
    destruct Hx as [->|Hx]; [lia|]. inversion Hs as [|? ? _ HF]; subst. rewrite Forall_forall in HF. now apply HF. }
  pose proof (wm_built_ok _ _ _ Hb) as [HE _ _ _].
  assert (HS : lenN (map (word_of k) l) < 2 ^ 64) by now rewrite lenN_map.
  pose proof (C36_quantile w l k Hb b a 0 _ ltac:(lia) Hp Hs) as Q1. pose proof (C36_quantile_u64 w l k Hb b a 0 _ ltac:(lia) Hp Hs) as Q2.
  destruct (N.ltb_spec b (lenN l)); [|lia]. destruct (N.leb_spec a (lenN l)); [|lia]. cbn [andb] in Q1, Q2. change (getN (m :: sl) 0) with (Some m) in *.
  unfold wm_quantile, wm_quantile_u64, wm_quantile_rel, wm_quantile_u64_rel in *. rewrite E1, E2 in *. rewrite !wsub_lt by lia.
  destruct (N.leb_spec (lenN l) a), (N.ltb_spec (lenN l) b), (N.ltb_spec (lenN l) a), (N.leb_spec (lenN l) b); try lia. cbn [orb] in *.
  rewrite (sub_ok a b) in * by lia. cbn [bind] in *. destruct (N.leb_spec (a - b) 0); [lia|]. destruct (N.leb_spec (2 ^ 64 - (a - b)) i), (N.ltb_spec i (2 ^ 64 - (a - b))); try lia.
  - split; [reflexivity|]. intros Hk. destruct (N.ltb_spec 64 k); [lia|]. reflexivity.
  - split.
    + rewrite (quantile_loop_rel_swap _ w _ 0 a b i _ HE HS) by (rewrite ?lenN_map; lia).
      unfold wm_quantile_unchecked, wm_partial_quantile in Q1. change (blen (bv_from_zeros (wm_bits w))) with (wm_bits w) in Q1. rewrite E1, E2, N.eqb_refl in Q1. cbn [assert bind] in Q1.
      destruct (N.ltb_spec b a); [|lia]. destruct (N.leb_spec a (lenN l)); [|lia]. exact Q1.
    + intros Hk. destruct (N.ltb_spec 64 k); [lia|]. destruct (N.leb_spec k 64); [|lia]. cbn [orb] in *.
      rewrite (quantile_loop_rel_swap _ w _ 0 a b i _ HE HS) by (rewrite ?lenN_map; lia).
      unfold wm_quantile_u64_unchecked, wm_partial_quantile_u64 in Q2. rewrite E1, E2 in Q2. destruct (N.leb_spec k 64); [|lia]. cbn [assert bind] in Q2.
      destruct (N.ltb_spec b a); [|lia]. destruct (N.leb_spec a (lenN l)); [|lia]. exact Q2.
Qed.
Example C77_ex : wm_rank_range_u64_rel ex_wm 4 1 5 = Ok (Some (2 ^ 64 - 1)) /\ wm_quantile_u64_rel ex_wm 4 2 9 = Ok (Some 0).
Proof. vm_compute. auto. Qed.

Lemma select_spec_le b l q : select_spec b l q <= lenN l.
Proof.
  unfold select_spec. destruct (getN (positions b l) q) as [p|] eqn:E; [|lia].
  apply getN_positions in E. lia.
Qed.
(** ** C78: select with [range_start + rank] beyond 64 bits. *)
Lemma start_rank rd ds : forall level a b x, wm_start_loop rd ds level a = Ok x -> forall c, wm_rank_loop rd ds level a b = Ok c ->
  exists y, wm_start_loop rd ds level b = Ok y /\ x <= y /\ c = y - x.
Proof.
  induction ds as [|d ds IH]; intros level a b x Ex c E; cbn [wm_rank_loop wm_start_loop] in *.
  - injection Ex as <-. exists b. unfold sub in E. destruct (N.leb_spec a b); [|discriminate]. injection E as <-. auto.
  - destruct (rd level) as [bit| |]; cbn [bind] in *; try discriminate. destruct (wm_down d bit a) as [a'| |]; cbn [bind] in *; try discriminate.
    destruct (wm_down d bit b) as [b'| |]; cbn [bind] in *; try discriminate. eapply IH; eauto.
Qed.
Lemma up_loop_rel rd ds S : forall level e p, enc ds S -> lenN S < 2 ^ 64 -> e < 2 ^ 64 -> wm_up_loop rd ds level e = Ok p -> wm_up_loop_rel rd ds level e = Ok p /\ p < 2 ^ 64.
Proof.
  revert S. induction ds as [|d ds IH]; intros S level e p HE HS He E; cbn [wm_up_loop wm_up_loop_rel] in *; [injection E as <-; auto|].
  destruct HE as (_ & L & HE). destruct (wm_up_loop rd ds (level + 1) e) as [e'| |] eqn:E'; cbn [bind] in E; try discriminate.
  destruct (IH (part S) _ _ _ HE ltac:(rewrite lenN_part; auto) He E') as [-> He']. cbn [bind]. destruct (rd level) as [bit| |]; cbn [bind] in *; try discriminate.
  assert (Hsel : forall b q r, Ok (select_spec b (map hdb S) q) = Ok r -> r < 2 ^ 64).
  { intros b q r Er. injection Er as <-. eapply N.le_lt_trans; [|exact HS]. rewrite <- (lenN_map hdb S). apply select_spec_le. }
  destruct (bit =? 0).
  - split; [auto|]. rewrite (lv_s0 _ _ L) in E. eauto.
  - unfold sub in E. destruct (N.leb_spec (rrank0 d) e'); [|discriminate]. cbn [bind] in E. rewrite wsub_ge by auto. split; [auto|]. rewrite (lv_s1 _ _ L) in E. eauto.
Qed.
Lemma select_rel_any w l k rd s o r : wm_built w l k -> lenN l < 2 ^ 63 -> reads rd 0 (word_of k s) -> o <= lenN l -> r < 2 ^ 64 ->
  2 ^ 64 <= occurrences (s mod 2 ^ k) (takeN o l) + r ->
  exists p, wm_select_loop_rel rd w o r = Ok p /\
    wm_found w p = getN (occurrence_positions (s mod 2 ^ k) 0 l) (occurrences (s mod 2 ^ k) (takeN o l) + r - 2 ^ 64).
Proof.
  intros Hb Hl Hr Ho Hr64 Hov. pose proof (wm_built_ok _ _ _ Hb) as G. pose proof (wo_enc _ _ _ G) as HE.
  pose proof (rank_any w l k G rd s 0 o Hr (N.le_0_l _) Ho) as Hrank.
  change (lenN (filter (N.eqb (s mod 2 ^ k)) (sliceN 0 (o - 0) l))) with (occurrences (s mod 2 ^ k) (sliceN 0 (o - 0) l)) in Hrank.
  replace (sliceN 0 (o - 0) l) with (takeN o l) in Hrank by (rewrite N.sub_0_r; reflexivity).
  set (c := occurrences (s mod 2 ^ k) (takeN o l)) in *.
  destruct (select_loop_ok rd w 0 (word_of k s) [] (map (word_of k) l) HE) as (x & Ex & Hx & Hup); auto.
  { rewrite lenN_word_of. symmetry. apply (wo_bits _ _ _ G). }
  change (lenN []) with 0 in Ex. cbn [app] in Hx. rewrite lenN_map in Hx.
  destruct (start_rank _ _ _ _ _ _ Ex _ Hrank) as (y & Ey & Hxy & Hc).
  destruct (select_any w l k G rd s 0 (c + r - 2 ^ 64) Hr (N.le_0_l _)) as [(p & Ep & Hp)|[_ Hp]].
  - exists p. split; [|exact Hp]. unfold wm_select_loop in Ep. rewrite Ex in Ep. cbn [bind] in Ep. unfold add64 in Ep.
    destruct (N.ltb_spec (x + (c + r - 2 ^ 64)) U64) as [Hlt|]; [|discriminate]. cbn [bind] in Ep.
    unfold wm_select_loop_rel. rewrite Ey. cbn [bind]. change U64 with (2 ^ 64) in Hlt.
    assert (Hy : y <= lenN l).
    { assert (HE' : enc w (map (word_of k) (takeN o l) ++ map (word_of k) (dropN o l))) by (rewrite <- map_app; unfold takeN, dropN; now rewrite firstn_skipn).
      destruct (select_loop_ok rd w 0 (word_of k s) _ _ HE') as (y' & Ey' & Hy' & _); auto.
      { rewrite lenN_word_of. symmetry. apply (wo_bits _ _ _ G). }
      rewrite lenN_map, lenN_takeN, N.min_l in Ey' by lia. rewrite Ey in Ey'. injection Ey' as <-. rewrite <- map_app in Hy'. unfold takeN, dropN in Hy'.
      now rewrite firstn_skipn, lenN_map in Hy'. }
    rewrite wadd_ge by lia. replace (y + r - 2 ^ 64) with (x + (c + r - 2 ^ 64)) by lia. eapply up_loop_rel; eauto. rewrite lenN_map. lia.
  - change U64 with (2 ^ 64) in Hp. pose proof (occurrences_le (s mod 2 ^ k) (takeN o l)). fold c in H. rewrite lenN_takeN in H. lia.
Qed.

(** A rank that wraps counts backwards from the offset: the answer is an occurrence before it. *)
Theorem C78_select_offset_u64 w l k o r s : wm_built w l k -> lenN l < 2 ^ 63 -> o < lenN l -> r < 2 ^ 64 -> k <= 64 -> s < 2 ^ k ->
  2 ^ 64 <= occurrences s (takeN o l) + r ->
  wm_select_offset_u64_rel w o r s = Ok (getN (occurrence_positions s 0 l) (occurrences s (takeN o l) + r - 2 ^ 64)).
Proof.
  intros Hb Hl Ho Hr Hk Hs Hov. pose proof (wm_built_ok _ _ _ Hb) as G. destruct (len_bits_eqs _ _ _ Hb) as [E1 E2].
  destruct (select_rel_any w l k (rd_u64 w s) s o r Hb Hl) as (p & E & Hp); [now apply (rd_u64_reads w l)|lia|auto|now rewrite (N.mod_small s)|].
  rewrite (N.mod_small s) in Hp by auto. unfold wm_select_offset_u64_rel. rewrite E1, E2.
  destruct (N.leb_spec (lenN l) o), (N.ltb_spec 64 k); try lia. cbn [orb]. rewrite E. cbn [bind]. now rewrite Hp.
Qed.
Theorem C78_select_offset w l k o r s : wm_built w l k -> lenN l < 2 ^ 63 -> o < lenN l -> r < 2 ^ 64 -> wf s -> lenN (bits s) = k ->
  2 ^ 64 <= occurrences (value (bits s)) (takeN o l) + r ->
  wm_select_offset_rel w o r s = Ok (getN (occurrence_positions (value (bits s)) 0 l) (occurrences (value (bits s)) (takeN o l) + r - 2 ^ 64)).
Proof.
  intros Hb Hl Ho Hr Hwf Hk Hov. pose proof (wm_built_ok _ _ _ Hb) as G. destruct (len_bits_eqs _ _ _ Hb) as [E1 E2].
  pose proof (value_mod k s Hk) as Hv.
  destruct (select_rel_any w l k (rd_bv w s) (value (bits s)) o r Hb Hl) as (p & E & Hp); [apply (rd_bv_reads w l); auto; now rewrite <- lenN_bits|lia|auto|now rewrite Hv|].
  rewrite Hv in Hp. unfold wm_select_offset_rel. rewrite E1, E2, <- lenN_bits, Hk, N.eqb_refl.
  destruct (N.leb_spec (lenN l) o); try lia. cbn [orb negb]. rewrite E. cbn [bind]. now rewrite Hp.
Qed.
(** So the answer is not the documented one: from offset 2 there is no occurrence of rank [2 ^ 64 - 1]. *)
Theorem C78_refuted : exists sequence k w o r s, wm_from_slice sequence k = Ok w /\ r < 2 ^ 64 /\ s < 2 ^ k /\ o < lenN sequence /\
  wm_select_offset_u64_rel w o r s = Ok (Some 1) /\ getN (occurrence_positions s o sequence) r = None.
Proof.
  exists [0; 1; 0], 1, (match wm_from_slice [0; 1; 0] 1 with Ok w => w | _ => [] end), 2, (2 ^ 64 - 1), 1. vm_compute. repeat split; auto.
Qed.
Example C78_ex : occurrences 5 (takeN 5 [3; 1; 0; 5; 5; 2; 7; 5]) = 2 /\ wm_select_offset_u64_rel ex_wm 5 (2 ^ 64 - 1) 5 = Ok (Some 4).
Proof. vm_compute. auto. Qed.
(** ** C79: ranges given by bounds. *)
Definition first_rel (s : bound) : N := match s with Included i => i | Excluded i => (i + 1) mod 2 ^ 64 | Unbounded => 0 end.
Definition last_rel (len : N) (e : bound) : N :=
  match e with Included j => j | Excluded j => if j =? 0 then 2 ^ 64 - 1 else j - 1 | Unbounded => len - 1 end.
Lemma clamp_rel len s e : 0 < len -> len < 2 ^ 64 -> word_bound s -> word_bound e ->
  clamp_bounds_rel len s e = Ok (N.min (first_rel s) (len - 1), N.min (last_rel len e) (len - 1)).
Proof.
  intros H1 H2 Hs He. unfold clamp_bounds_rel. rewrite (wsub_ge len 1) by lia. f_equal. f_equal.
  destruct e as [j|j|]; cbn [last_rel word_bound] in *; auto. destruct (N.eqb_spec j 0) as [->|]; [now rewrite wsub_lt by lia|]. now rewrite wsub_ge by lia.
Qed.
Lemma idx_lt {A} (l : list A) i x : idx l i = Ok x -> i < lenN l.
Proof. intros E. apply idx_inv in E. tauto. Qed.
Lemma br_rel_same data b i j k : br_data b = data -> lenN data < 2 ^ 32 -> i <= j -> j < lenN data ->
  br_range_min b i j = Ok k -> br_range_min_rel b i j = Ok k.
Proof.
  intros Hd Hl Hij Hj.
  unfold br_range_min_rel, br_range_min, br_arg. rewrite wsub_ge by lia. rewrite (sub_ok j i) by auto. cbn [bind].
  rewrite Hd. set (row := tz_npt (lenN data) + 1). set (L := N.log2 (j - i)).
  assert (Hrow : row <= 33).
  { unfold row, tz_npt. enough (N.log2_up (lenN data) <= 32) by lia. change 32 with (N.log2_up (2 ^ 32)). apply N.log2_up_le_mono. lia. }
  assert (HL : 2 ^ L - 1 <= j /\ L < 32).
  { unfold L. destruct (N.eq_dec (j - i) 0) as [->|]; [cbn; lia|]. pose proof (N.log2_spec (j - i) ltac:(lia)) as [H1 _].
    split; [lia|]. apply N.log2_lt_pow2; lia. }
  assert (Hsmall : forall p, p <= j -> wrapping_add (p * row mod U64) L = p * row + L).
  { intros p Hp. assert (p * row <= 2 ^ 32 * 33) by (apply N.mul_le_mono; lia). change U64 with (2 ^ 64). rewrite N.mod_small by lia. apply wadd_lt. lia. }
  rewrite Hsmall by auto. destruct (idx (br_results b) (i * row + L)) as [x| |] eqn:Ex; cbn [bind]; try discriminate.
  rewrite (wsub_ge j), (sub_ok j) by lia. cbn [bind]. rewrite Hsmall by lia.
  destruct (idx (br_results b) ((j - (2 ^ L - 1)) * row + L)) as [y| |] eqn:Ey; cbn [bind]; try discriminate.
  intros E. assert (Hx : x + i < lenN data /\ y + (j - (2 ^ L - 1)) < lenN data).
  { unfold min_by_data in E. destruct (idx data (x + i)) eqn:E1; cbn [bind] in E; try discriminate.
    destruct (idx data (y + (j - (2 ^ L - 1)))) eqn:E2; cbn [bind] in E; try discriminate. apply idx_lt in E1, E2. auto. }
  rewrite !wadd_lt by lia. exact E.
Qed.
(** [a..0] is read as [a..]: the decremented bound wraps to the largest index. *)
Theorem C79_binary data b s e :
  0 < lenN data -> br_from_vec data = Ok b -> word_bound s -> word_bound e ->
  let lo := N.min (first_rel s) (lenN data - 1) in
  let hi := N.min (last_rel (lenN data) e) (lenN data - 1) in
  lo <= hi ->
  exists k, br_range_min_with_range_rel b s e = Ok k /\ lo <= k /\ k <= hi /\
    forall m x y, lo <= m -> m <= hi -> getN data k = Some x -> getN data m = Some y -> x <= y.
Proof.
  intros Hn Eb Hs He lo hi Hlh. destruct (N.lt_ge_cases (lenN data) (2 ^ 32)) as [H|H].
  2: { destruct (C28_construction data) as [_ Hp]. rewrite Hp in Eb by auto. discriminate. }
  destruct (C28_range_min data lo hi H Hlh) as (b' & k & Eb' & Ek & K); [lia|]. rewrite Eb in Eb'. injection Eb' as <-.
  exists k. split; [|exact K]. destruct (C28_construction data) as [Hc _]. destruct (Hc H) as (b2 & Eb2 & Hd). assert (b2 = b) by congruence. subst b2.
  unfold br_range_min_with_range_rel. rewrite Hd, clamp_rel by (auto; lia). cbn [bind]. fold lo hi. apply (br_rel_same data b lo hi k Hd H Hlh); [lia|auto].
Qed.
(** The fast structure needs no overflow checks: nothing wraps before an index is out of bounds. *)
Lemma fr_rel_same data r i j : fr_from_vec data = Ok r -> fr_range_min_rel r i j = fr_range_min r i j.
Proof.
  intros E. destruct (N.le_gt_cases (lenN data) (2 ^ 39 - 128)) as [Hn|H]; [|apply C57_length_limit in H; congruence].
  destruct (fr_from_vec_ok data) as (r' & E' & G); [lia|apply N.div_lt_upper_bound; lia|]. rewrite E in E'. injection E' as <-.
  pose proof G as [Gd (L1 & L2 & L3 & HG) Gs Gm]. unfold fr_range_min_rel, fr_range_min. rewrite Gd. fold (block i) (block j).
  set (NB := (lenN data + 127) / 128) in *. fold (to_end i) (to_end j).
  assert (T : forall x, to_end x <= 128) by (intros x; unfold to_end; lia).
  assert (M : forall x, x mod 128 + 1 <= 128) by (intros x; pose proof (N.mod_lt x 128 ltac:(lia)); lia).
  assert (Zb : forall v k, zeros v k <= k) by (intros v k; apply cnt_le).
  assert (Pb : forall x, block x < NB -> exists p, p < 128 /\
    zeros (fb_prefix (nthN (mkfb 0 0) (fr_blocks r) (block x))) (x mod 128 + 1) = zeros (fb_prefix (nthN (mkfb 0 0) (fr_blocks r) (block x))) p + 1 /\
    sbv_select0 (fb_prefix (nthN (mkfb 0 0) (fr_blocks r) (block x))) (zeros (fb_prefix (nthN (mkfb 0 0) (fr_blocks r) (block x))) p) = Ok p).
  { intros x Hx. destruct (N.lt_ge_cases x (lenN data)) as [H|H].
    - destruct (prefix_search data r G x H) as (p & P1 & P2 & P3 & _). rewrite sbv_rank0_ok in P2 by auto. injection P2 as P2. exists p. auto.
    - destruct (prefix_beyond data r G x H Hx) as [P1 P2]. rewrite sbv_rank0_ok in P1 by auto. injection P1 as P1. exists (x mod 128).
      split; [apply N.mod_lt; lia|]. auto. }
  destruct (N.eqb_spec (block i) (block j)) as [Eb|Nb].
  - rewrite Eb. destruct (N.lt_ge_cases (block j) NB) as [Hb|Hb]; [|now rewrite !idx_panic by lia].
    rewrite (idx_ok (mkfb 0 0)) by lia. cbn [bind]. rewrite !sbv_rank0_ok by auto. cbn [bind].
    destruct (Pb j Hb) as (p & P1 & P2 & P3). rewrite P2. set (blk := nthN _ (fr_blocks r) (block j)) in *.
    assert (B1 : block j < 2 ^ 32) by lia. pose proof (Zb (fb_prefix blk) p) as B2.
    rewrite (wsub_ge (_ + 1)), N.add_sub by lia. rewrite P3. cbn [bind]. rewrite wadd_lt by lia.
    destruct (_ <? _); [reflexivity|].
    destruct (suffix_search data r G j Hb) as (s & S1 & S2 & S3 & S4 & _). fold blk in S2, S3, S4. rewrite S3.
    pose proof (Zb (fb_suffix blk) s) as B3. pose proof (T j) as B4. rewrite (wsub_ge (_ + 1)), N.add_sub, S4 by lia. cbn [bind].
    change U64 with (2 ^ 64). rewrite (N.mod_small ((block j + 1) * 128)) by lia. rewrite wsub_ge, sub_ok by lia.
    destruct (_ <? _); [reflexivity|]. unfold slice_chk. destruct (N.leb_spec i (j + 1)); cbn [andb bind]; [|reflexivity].
    destruct (N.leb_spec (j + 1) (lenN data)); cbn [bind]; [|reflexivity].
    destruct (min_index _) as [k| |] eqn:Ek; cbn [bind]; [|reflexivity|reflexivity].
    assert (k < lenN data).
    { destruct (N.eq_dec i (j + 1)) as [->|]; [rewrite N.sub_diag in Ek; discriminate|].
      destruct (min_index_ok (sliceN i (j + 1 - i) data)) as (k' & Ek' & K1 & _); [rewrite lenN_sliceN; lia|].
      rewrite lenN_sliceN in K1 by lia. assert (X : Ok k' = Ok k) by (rewrite <- Ek, <- Ek'; reflexivity). injection X as <-. lia. }
    now rewrite wadd_lt by lia.
  - destruct (N.lt_ge_cases (block i) NB) as [Hi|Hi]; [|now rewrite !(idx_panic _ (block i)) by lia].
    rewrite (idx_ok (mkfb 0 0) _ (block i)) by lia. cbn [bind]. rewrite !(sbv_rank0_ok _ (to_end i)) by auto. cbn [bind].
    destruct (suffix_search data r G i Hi) as (s & S1 & S2 & S3 & S4 & _). set (blk := nthN _ (fr_blocks r) (block i)) in *.
    pose proof (Zb (fb_suffix blk) s) as B3. pose proof (T i) as B4. assert (B1 : block i < 2 ^ 32) by lia.
    rewrite S3, sub_ok by lia. rewrite (wsub_ge (_ + 1)), N.add_sub, S4 by lia. cbn [bind]. rewrite S4. cbn [bind].
    change U64 with (2 ^ 64). rewrite (N.mod_small ((block i + 1) * 128)) by lia. rewrite (sub_ok ((block i + 1) * 128)) by lia. cbn [bind].
    rewrite (wsub_ge ((block i + 1) * 128)) by lia. rewrite (sub_ok _ 1), !(wsub_ge ((block i + 1) * 128 - s) 1) by lia. cbn [bind].
    destruct (N.lt_ge_cases (block j) NB) as [Hb|Hb]; [|now rewrite !(idx_panic _ (block j)) by lia].
    rewrite (idx_ok (mkfb 0 0) _ (block j)) by lia. cbn [bind]. rewrite !sbv_rank0_ok by auto. cbn [bind].
    destruct (Pb j Hb) as (p & P1 & P2 & P3). rewrite P2. set (blj := nthN _ (fr_blocks r) (block j)) in *.
    pose proof (Zb (fb_prefix blj) p) as B5. assert (B6 : block j < 2 ^ 32) by lia.
    rewrite sub_ok by lia. rewrite (wsub_ge (_ + 1)), N.add_sub, P3 by lia. cbn [bind]. rewrite P3. cbn [bind].
    rewrite (wadd_lt (block j * 128)) by lia. destruct (N.ltb_spec (block i + 1) (block j)) as [H|H]; [|reflexivity].
    rewrite (wsub_ge (block j)) by lia.
    destruct (br_range_min_ok (br_data (fr_minima r)) ltac:(lia) (fr_minima r) (block i + 1) (block j - 1) eq_refl Gm) as (m & Em & K1 & K2 & _); [lia|lia|].
    rewrite (br_rel_same (br_data (fr_minima r)) (fr_minima r) (block i + 1) (block j - 1) m) by (auto; lia).
    rewrite Em. cbn [bind]. rewrite (idx_ok 0) by lia. cbn [bind].
    pose proof (bg_idx _ _ _ _ _ (HG m ltac:(lia))) as Hx. rewrite (N.mod_small (m * 128)) by lia. now rewrite wadd_lt by lia.
Qed.
Theorem C79_fast data r s e :
  0 < lenN data -> fr_from_vec data = Ok r -> word_bound s -> word_bound e ->
  let lo := N.min (first_rel s) (lenN data - 1) in
  let hi := N.min (last_rel (lenN data) e) (lenN data - 1) in
  lo <= hi ->
  exists k, fr_range_min_with_range_rel r s e = Ok k /\ lo <= k /\ k <= hi /\
    forall m x y, lo <= m -> m <= hi -> getN data k = Some x -> getN data m = Some y -> x <= y.
Proof.
  intros Hn Eb Hs He lo hi Hlh. destruct (N.le_gt_cases (lenN data) (2 ^ 39 - 128)) as [H|H]; [|apply C57_length_limit in H; congruence].
  destruct (C29_range_min data r lo hi Eb Hlh) as (k & Ek & K); [lia|]. exists k. split; [|exact K].
  assert (Hd : fr_data r = data).
  { destruct (fr_from_vec_ok data) as (r' & E' & G); [lia|apply N.div_lt_upper_bound; lia|]. rewrite Eb in E'. injection E' as <-. apply (fg_data _ _ G). }
  unfold fr_range_min_with_range_rel. rewrite Hd, clamp_rel by (auto; lia). cbn [bind]. now rewrite (fr_rel_same data).
Qed.
(** An inverted range panics, as it does in the debug build: the second position leaves the array. *)
Theorem C79_inverted data b i j : br_from_vec data = Ok b -> j < i -> i < lenN data -> br_range_min_rel b i j = Panic.
Proof.
  intros Eb Hji Hi. destruct (N.lt_ge_cases (lenN data) (2 ^ 32)) as [Hl|H].
  2: { destruct (C28_construction data) as [_ Hp]. rewrite Hp in Eb by auto. discriminate. }
  destruct (br_from_vec_ok data Hl) as (b' & Eb' & Hd & Hr & HG). rewrite Eb in Eb'. injection Eb' as <-.
  assert (Hent : forall p x, idx (br_results b) p = Ok x -> x < 2 ^ 32).
  { intros p x E. apply idx_inv in E as [Hp Hx]. rewrite <- (Hx 0). clear Hx. set (row := tz_npt (lenN data) + 1) in *.
    assert (Hrow : 0 < row) by (unfold row; lia). pose proof (N.div_mod p row ltac:(lia)) as Dm. pose proof (N.mod_lt p row ltac:(lia)) as Ml.
    destruct (HG (p mod row) (p / row)) as [HA _]; [unfold row in *; lia|apply N.div_lt_upper_bound; [lia|now rewrite N.mul_comm, <- Hr]|].
    fold row in HA. replace (p / row * row + p mod row) with p in HA by lia.
    eapply N.le_lt_trans; [apply N.le_add_r|]. eapply N.lt_trans; eauto. }
  unfold br_range_min_rel. rewrite wsub_lt by lia.
  assert (Hlog : N.log2 (2 ^ 64 - (i - j)) = 63) by (apply N.log2_unique; lia). rewrite Hlog.
  destruct (idx (br_results b) _) as [x| |] eqn:Ex; cbn [bind]; [|reflexivity|now destruct (idx_cases (br_results b) (wrapping_add (i * (tz_npt (lenN (br_data b)) + 1) mod U64) 63)) as [H|[y H]]; rewrite H in Ex].
  destruct (idx (br_results b) (wrapping_add (wrapping_sub j (2 ^ 63 - 1) * _ mod U64) 63)) as [y| |] eqn:Ey; cbn [bind]; [|reflexivity|destruct (idx_cases (br_results b) (wrapping_add (wrapping_sub j (2 ^ 63 - 1) * (tz_npt (lenN (br_data b)) + 1) mod U64) 63)) as [H|[z H]]; rewrite H in Ey; discriminate].
  apply Hent in Ey. rewrite (wsub_lt j) by lia. rewrite (wadd_lt y) by lia. unfold min_by_data.
  destruct (idx_cases (br_data b) (wrapping_add x i)) as [->|[z ->]]; cbn [bind]; [reflexivity|].
  destruct (idx (br_data b) (y + _)) as [v| |] eqn:Ev; cbn [bind]; [apply idx_lt in Ev; rewrite Hd in Ev; lia|reflexivity|].
  destruct (idx_cases (br_data b) (y + (2 ^ 64 - (2 ^ 63 - 1 - j)))) as [H|[u H]]; rewrite H in Ev; discriminate.
Qed.
(** So the empty range [0..0] gives the position of the minimum of everything. *)
Theorem C79_refuted :
  exists data b r k, br_from_vec data = Ok b /\ fr_from_vec data = Ok r /\ 
    br_range_min_with_range_rel b (Included 0) (Excluded 0) = Ok k /\ fr_range_min_with_range_rel r (Included 0) (Excluded 0) = Ok k /\ k = 2.
Proof.
  exists [5; 2; 1], (match br_from_vec [5; 2; 1] with Ok b => b | _ => mkbr [] [] end), (match fr_from_vec [5; 2; 1] with Ok r => r | _ => mkfr [] (mkbr [] []) [] [] end), 2.
  vm_compute. auto 6.
Qed.
Example C79_ex : exists b, br_from_vec [5; 2; 1; 7] = Ok b /\ br_range_min_with_range_rel b (Included 3) (Excluded 0) = Ok 3 /\
  br_range_min_with_range_rel b (Included 0) (Excluded 2) = Ok 1.
Proof. eexists. vm_compute. auto. Qed.

(** ** C80: skipping in the generic iterators. *)
Definition gi_step_rel {A} (get : N -> res (option A)) (it : gen_iter) (op : iter_op) : res (gen_iter * iter_out A) :=
  match op with
  | INth n => let* '(it, o) := gi_nth_rel get it n in Ok (it, OItem o)
  | _ => gi_step get it op
  end.
Lemma gi_nexts {A} (get : N -> res (option A)) l ops : (forall j, j < lenN l -> get j = Ok (getN l j)) -> forall n i, i + N.of_nat n <= lenN l -> 0 < lenN l ->
  iter_run (gi_step_rel get) (mkgi i (Some (lenN l - 1))) (repeat INext n ++ ops) =
  let* os := iter_run (gi_step_rel get) (mkgi (i + N.of_nat n) (Some (lenN l - 1))) ops in Ok (map (fun j => OItem (getN l j)) (range i (i + N.of_nat n)) ++ os).
Proof.
  intros Hg. induction n as [|n IH]; intros i Hi H0.
  - cbn [repeat app N.of_nat]. rewrite N.add_0_r, range_nil by lia. cbn [map app]. now destruct (iter_run _ _ _).
  - cbn [repeat app iter_run gi_step_rel gi_step]. unfold gi_next, gi_empty at 1. cbn [gi_index gi_back some_gt]. destruct (N.ltb_spec (lenN l - 1) i); [lia|].
    rewrite Hg by lia. cbn [bind]. assert (Ev : exists v, getN l i = Some v) by (destruct (getN l i) eqn:Eg; [eauto|]; unfold getN in Eg; destruct (N.ltb_spec i (lenN l)); [apply nth_error_None in Eg; unfold lenN in *|]; lia).
    destruct Ev as [v Ev]. rewrite Ev. cbn [bind]. rewrite IH by lia.
    replace (i + 1 + N.of_nat n) with (i + N.of_nat (S n)) by lia. destruct (iter_run _ _ ops); cbn [bind]; auto. f_equal.
    rewrite (range_cons i) by lia. cbn [map app]. now rewrite Ev.
Qed.
(** After [i] elements, [nth(2 ^ 64 - d)] goes back to the element [d] before: what follows is what
    follows after [i - d] elements. *)
Theorem C80_nth {A} (get : N -> res (option A)) l i d ops :
  (forall j, j < lenN l -> get j = Ok (getN l j)) -> lenN l < 2 ^ 64 -> 0 < d -> d < i -> i <= lenN l ->
  iter_run (gi_step_rel get) (gi_new (lenN l)) (repeat INext (N.to_nat i) ++ INth (2 ^ 64 - d) :: ops) =
  let* os := iter_run (gi_step_rel get) (gi_new (lenN l)) (repeat INext (N.to_nat (i - d)) ++ INext :: ops) in
  Ok (map (fun j => OItem (getN l j)) (range 0 i) ++ dropN (i - d) os).
Proof.
  intros Hg Hl H1 H2 H3. unfold gi_new. destruct (N.eqb_spec (lenN l) 0); [lia|]. rewrite !(gi_nexts get l) by (auto; lia). rewrite !N2Nat.id, !N.add_0_l.
  cbn [iter_run gi_step_rel gi_step]. unfold gi_nth_rel, gi_advance_by_rel. cbn [gi_index gi_back]. destruct (N.eqb_spec (2 ^ 64 - d) 0); [lia|].
  rewrite wadd_ge by lia. replace (i + (2 ^ 64 - d) - 2 ^ 64) with (i - d) by lia. rewrite wsub_ge by lia. cbn [some_gt].
  destruct (N.ltb_spec (lenN l - 1) (i - d - 1)); [lia|]. cbn [bind]. destruct (gi_next get _) as [[it o]| |]; cbn [bind]; auto.
  destruct (iter_run _ it ops) as [os| |]; cbn [bind]; auto. do 2 f_equal. 
  rewrite dropN_app_ge by (rewrite lenN_map, lenN_range; lia). rewrite lenN_map, lenN_range. now replace (i - d - (i - d - 0)) with 0 by lia.
Qed.
Theorem C80_bit_vec bv i d ops :
  wf bv -> lenN (bits bv) < 2 ^ 64 -> 0 < d -> d < i -> i <= lenN (bits bv) ->
  iter_run (gi_step_rel (bv_get bv)) (gi_new (bv_length bv)) (repeat INext (N.to_nat i) ++ INth (2 ^ 64 - d) :: ops) =
  let* os := iter_run (gi_step_rel (bv_get bv)) (gi_new (bv_length bv)) (repeat INext (N.to_nat (i - d)) ++ INext :: ops) in
  Ok (map (fun j => OItem (getN (map bitN (bits bv)) j)) (range 0 i) ++ dropN (i - d) os).
Proof.
  intros H Hl H1 H2 H3. replace (bv_length bv) with (lenN (map bitN (bits bv))) by (rewrite lenN_map, lenN_bits; reflexivity).
  apply C80_nth; rewrite ?lenN_map; auto. intros. now apply bv_getter.
Qed.
Theorem C80_rs_vec bv rs i d ops :
  wf bv -> rs_from_bit_vec bv = Ok rs -> lenN (bits bv) < 2 ^ 64 -> 0 < d -> d < i -> i <= lenN (bits bv) ->
  iter_run (gi_step_rel (rs_get rs)) (gi_new (rlen rs)) (repeat INext (N.to_nat i) ++ INth (2 ^ 64 - d) :: ops) =
  let* os := iter_run (gi_step_rel (rs_get rs)) (gi_new (rlen rs)) (repeat INext (N.to_nat (i - d)) ++ INext :: ops) in
  Ok (map (fun j => OItem (getN (map bitN (bits bv)) j)) (range 0 i) ++ dropN (i - d) os).
Proof.
  intros H E Hl H1 H2 H3. pose proof (built bv rs H E) as G.
  replace (rlen rs) with (lenN (map bitN (bits bv))) by (rewrite lenN_map, lenN_bits; symmetry; apply (good_len _ _ G)).
  apply C80_nth; rewrite ?lenN_map; auto. intros. now apply rs_getter.
Qed.
Example C80_ex :
  iter_run (gi_step_rel (bv_get (mkbv [6] 3))) (gi_new 3) [INext; INext; INext; INext; INth (2 ^ 64 - 3); INth (2 ^ 64 - 2); INext; ILen] =
  Ok [OItem (Some 0); OItem (Some 1); OItem (Some 1); OItem None; OItem None; OItem (Some 1); OItem (Some 1); OLen 0].
Proof. vm_compute. reflexivity. Qed.

(** ** C81: skipping from the back of a select iterator. *)
Definition sel_step_rel (zero : bool) (rs : rsvec) (it : sel_iter) (op : iter_op) : res (sel_iter * iter_out N) :=
  match op with
  | INthBack n => let* '(it, o) := sel_nth_back_rel zero rs it n in Ok (it, OItem o)
  | ILen => Ok (it, OLen (sel_len_rel it))
  | _ => sel_step zero rs it op
  end.
Lemma next_any_back (zero : bool) rs it b b' : it_back it = Some b -> b + 1 = (if zero then rrank0 rs else rrank1 rs) -> b <= b' ->
  sel_next zero rs (with_back it (Some b')) = let* '(it', o) := sel_next zero rs it in Ok (with_back it' (Some b'), o).
Proof.
  intros Eb Hb Hb'. unfold sel_next. destruct zero.
  - unfold select_next_0, select_next_0_with, with_back. cbn [it_rank it_back it_sb it_sbb it_b it_bb]. rewrite Eb.
    destruct (N.leb_spec (rrank0 rs) (it_rank it)); cbn [orb]; [reflexivity|]. destruct (N.ltb_spec b' (it_rank it)), (N.ltb_spec b (it_rank it)); try lia.
    repeat (match goal with |- context [bind ?e _] => first [destruct e as [[[? ?] ?]| |] | destruct e as [?| |]]; cbn [bind]; auto end).
  - unfold select_next_1, select_next_1_with, with_back. cbn [it_rank it_back it_sb it_sbb it_b it_bb]. rewrite Eb.
    destruct (N.leb_spec (rrank1 rs) (it_rank it)); cbn [orb]; [reflexivity|]. destruct (N.ltb_spec b' (it_rank it)), (N.ltb_spec b (it_rank it)); try lia.
    repeat (match goal with |- context [bind ?e _] => first [destruct e as [[[? ?] ?]| |] | destruct e as [?| |]]; cbn [bind]; auto end).
Qed.
Lemma next_keeps_back zero rs it it' o : sel_next zero rs it = Ok (it', o) -> it_back it' = it_back it.
Proof.
  unfold sel_next. destruct zero.
  - unfold select_next_0, select_next_0_with. destruct (_ || _); [now intros [= <- _]|]. intros E.
    repeat (match type of E with bind ?e _ = _ => first [destruct e as [[[? ?] ?]| |] | destruct e as [?| |]]; cbn [bind] in E; try discriminate end). now injection E as <- _.
  - unfold select_next_1, select_next_1_with. destruct (_ || _); [now intros [= <- _]|]. intros E.
    repeat (match type of E with bind ?e _ = _ => first [destruct e as [[[? ?] ?]| |] | destruct e as [?| |]]; cbn [bind] in E; try discriminate end). now injection E as <- _.
Qed.
Lemma getN_drop1 {A} (l : list A) m : map (getN l) (range 1 (1 + m)) = map (getN (dropN 1 l)) (range 0 m).
Proof.
  apply (list_ext None).
  - now rewrite !lenN_map, !lenN_range, N.sub_0_r, N.add_comm, N.add_sub.
  - intros i Hi. rewrite lenN_map, lenN_range in Hi. rewrite !(nthN_map _ 0) by (rewrite lenN_range; lia). rewrite !nthN_range by lia. rewrite getN_dropN. f_equal. 
Qed.
Section Back.
Variables (zero : bool) (bv : bitvec) (rs : rsvec).
Hypothesis Hwf : wf bv.
Hypothesis G : rs_good bv rs.
Lemma nexts_any_back b' : forall n it b l, sel_R zero bv rs it l -> it_back it = Some b -> b + 1 = (if zero then rrank0 rs else rrank1 rs) -> b <= b' ->
  iter_run (sel_step_rel zero rs) (with_back it (Some b')) (repeat INext n) = Ok (map (fun k => OItem (getN l k)) (range 0 (N.of_nat n))).
Proof.
  induction n as [|n IH]; intros it b l R Eb Hb Hb'; [reflexivity|].
  cbn [repeat iter_run sel_step_rel sel_step]. rewrite (next_any_back zero rs it b b') by auto.
  destruct (sel_next_ok zero bv rs Hwf G it l R) as (it' & E & R'). rewrite E. cbn [bind]. pose proof (next_keeps_back _ _ _ _ _ E) as Eb'. rewrite Eb in Eb'.
  rewrite (IH it' b (dropN 1 l)) by auto. cbn [bind]. rewrite (range_cons 0 (N.of_nat (S n))) by lia. cbn [map]. do 2 f_equal.
  rewrite <- !(map_map (getN _) OItem). f_equal. rewrite <- getN_drop1. do 2 f_equal; lia.
Qed.
End Back.
(** On a fresh iterator [nth_back(n)] panics if [n] is the number of elements. If [n] is larger it
    returns nothing and the length becomes 0, but [next] still returns all elements. *)
Theorem C81_nth_back zero bv rs it n m :
  wf bv -> rs_from_bit_vec bv = Ok rs -> lenN (bits bv) < 2 ^ 63 -> sel_new zero rs = Ok it ->
  let elements := positions (negb zero) (bits bv) in
  0 < lenN elements -> 
  (n = lenN elements -> iter_run (sel_step_rel zero rs) it [INthBack n] = Panic) /\
  (lenN elements < n -> 
     iter_run (sel_step_rel zero rs) it (INthBack n :: ILen :: repeat INext (N.to_nat m)) =
     Ok (OItem None :: OLen 0 :: map (fun k => OItem (getN elements k)) (range 0 m))).
Proof.
  intros H E Hl En elements H0. pose proof (built bv rs H E) as G. destruct (sel_new_ok zero bv rs H G) as (it1 & E1 & R). rewrite En in E1. injection E1 as <-.
  change (posz zero bv) with elements in R. pose proof (R_lenN zero bv rs it elements R) as El.
  assert (Hb : it_rank it = 0 /\ it_back it = Some (lenN elements - 1) /\ lenN elements = if zero then rrank0 rs else rrank1 rs).
  { unfold sel_new in En. destruct (rlen rs =? 0); [injection En as <-; cbn in El; lia|].
    destruct (sub (lenN (rsupers rs)) 1); cbn [bind] in En; try discriminate. destruct (sub (lenN (rblocks rs)) 1); cbn [bind] in En; try discriminate.
    injection En as <-. unfold sel_len in El. cbn [it_rank it_back] in *. destruct (N.ltb_spec 0 (if zero then rrank0 rs else rrank1 rs)); [|lia].
    assert (Ex : lenN elements = if zero then rrank0 rs else rrank1 rs) by lia. now rewrite <- Ex. }
  destruct Hb as (Hr & Hb & Hx).
  assert (Hle : lenN elements <= lenN (bits bv)). { unfold elements. rewrite lenN_positions. apply count_le. }
  assert (Hs : sel_len_rel it = lenN elements). { unfold sel_len_rel. rewrite Hb, Hr, wadd_lt by lia. lia. }
  split.
  - intros ->. cbn [iter_run sel_step_rel]. unfold sel_nth_back_rel, advance_back_by_rel. rewrite Hs, N.leb_refl, Hb. cbn [option_map].
    rewrite wsub_lt by lia. replace (2 ^ 64 - (lenN elements - (lenN elements - 1))) with (2 ^ 64 - 1) by lia.
    assert (Hsel : idx (rsel rs) ((2 ^ 64 - 1) / SELECT_BLOCK_SIZE) = Panic).
    { unfold idx. destruct (N.ltb_spec ((2 ^ 64 - 1) / SELECT_BLOCK_SIZE) (lenN (rsel rs))) as [Hc|]; auto. exfalso. rewrite (good_sel_len _ _ G) in Hc.
      change ((2 ^ 64 - 1) / SELECT_BLOCK_SIZE) with (2 ^ 51 - 1) in Hc. pose proof (good_rank0 _ _ G) as Hz. pose proof (cnt_le (zbit (bdata bv)) (blen bv)).
      rewrite lenN_bits in *. destruct H as [Hd _]. dlia. }
    unfold sel_next_back. destruct zero; unfold select_next_0_back, select_next_0_back_with, select_next_1_back, select_next_1_back_with, with_back; cbn [it_back it_rank]; rewrite Hr;
      destruct (N.ltb_spec (2 ^ 64 - 1) 0); try lia; rewrite Hsel; reflexivity.
  - intros Hn. cbn [iter_run sel_step_rel]. unfold sel_nth_back_rel, advance_back_by_rel. rewrite Hs. destruct (N.leb_spec n (lenN elements)); [lia|]. rewrite Hb. cbn [option_map bind].
    rewrite wsub_lt by lia. replace (2 ^ 64 - (lenN elements - (lenN elements - 1))) with (2 ^ 64 - 1) by lia.
    rewrite (nexts_any_back zero bv rs H G (2 ^ 64 - 1) (N.to_nat m) it (lenN elements - 1) elements) by (auto; lia). cbn [bind]. rewrite N2Nat.id. do 3 f_equal.
Qed.
Theorem C81_refuted : exists bv rs it, wf bv /\ rs_from_bit_vec bv = Ok rs /\ sel_new false rs = Ok it /\
  iter_run (sel_step_rel false rs) it [INthBack 9; ILen; INext; INextBack] = Panic /\
  iter_run (sel_step_rel false rs) it [INthBack 9; ILen; INext] = Ok [OItem None; OLen 0; OItem (Some 1)] /\
  iter_spec_run (positions true (bits bv)) [INthBack 9; ILen; INext] = [OItem None; OLen 0; OItem None].
Proof.
  exists (mkbv [6] 3). eexists. eexists. split; [split; [reflexivity|repeat constructor]|]. split; [vm_compute; reflexivity|]. split; [vm_compute; reflexivity|]. vm_compute. auto.
Qed.
Example C81_ex : exists rs it, rs_from_bit_vec (mkbv [6] 3) = Ok rs /\ sel_new true rs = Ok it /\ iter_run (sel_step_rel true rs) it [INthBack 1] = Panic.
Proof. eexists. eexists. split; [vm_compute; reflexivity|]. split; [vm_compute; reflexivity|]. vm_compute. reflexivity. Qed.
