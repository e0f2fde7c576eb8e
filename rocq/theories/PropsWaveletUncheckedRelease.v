(** * C128: what the unchecked wavelet matrix queries return in a release build, for every argument. *)
From Coq Require Import Permutation Sorting.Sorted.
From Verif Require Import Base Spec BaseFacts WordFacts BitVecModel BitVecProofs BitVecProofs2 RsVecModel RsVecProofs RsEqProofs PropsRsVec GenIterModel
  WaveletModel WaveletProofs WaveletOrder WaveletBuild WaveletCount WaveletQuery WaveletAnswer PropsWavelet ReleaseModel PropsRelease PropsWaveletUnchecked
  WaveletUncheckedReleaseModel.

(** ** Rank. *)
Lemma rank_loop_rel_min w l k rd a b : wmok w l k ->
  wm_rank_loop_rel rd w 0 a b = wm_rank_loop_rel rd w 0 (N.min a (lenN l)) (N.min b (lenN l)).
Proof.
  intros H. pose proof (wo_pos _ _ _ H). pose proof (wo_bits _ _ _ H) as Hw. pose proof (wo_enc _ _ _ H) as He.
  destruct w as [|d w]; [cbn in Hw; lia|]. destruct He as (_ & L & _). cbn [wm_rank_loop_rel].
  destruct (rd 0) as [bit| |]; cbn [bind]; auto.
  pose proof (down_min d _ bit a L) as Ea. pose proof (down_min d _ bit b L) as Eb. rewrite !lenN_map in Ea, Eb.
  now rewrite Ea, Eb.
Qed.
Lemma rank_loop_rel_same rd ds : forall level a b c, wm_rank_loop rd ds level a b = Ok c -> c < 2 ^ 64 ->
  wm_rank_loop_rel rd ds level a b = Ok c.
Proof.
  induction ds as [|d ds IH]; intros level a b c E Hc; cbn [wm_rank_loop wm_rank_loop_rel] in *.
  - unfold sub in E. destruct (N.leb_spec a b); [|discriminate]. injection E as <-. f_equal.
    unfold wrapping_sub. change U64 with (2 ^ 64). replace (b + 2 ^ 64 - a) with (b - a + 1 * 2 ^ 64) by lia.
    rewrite N.mod_add by lia. now apply N.mod_small.
  - destruct (rd level) as [bit| |]; cbn [bind] in *; try discriminate.
    destruct (wm_down d bit a) as [a'| |]; cbn [bind] in *; try discriminate.
    destruct (wm_down d bit b) as [b'| |]; cbn [bind] in *; try discriminate. now apply IH.
Qed.

(** The occurrences of [s] from [a] to [b], both cut at the end; if the range is inverted, the
    occurrences between its ends are subtracted from 2^64. *)
Definition rank_outcome_rel (l : list N) (a b s : N) : N :=
  let a := N.min a (lenN l) in
  let b := N.min b (lenN l) in
  if a <=? b then occurrences s (sliceN a (b - a) l)
  else (2 ^ 64 - occurrences s (sliceN b (a - b) l)) mod 2 ^ 64.

Lemma rank_rel_any w l k rd s a b : wm_built w l k -> lenN l < 2 ^ 64 ->
  (forall a b, a <= b -> b <= lenN l -> wm_rank_loop rd w 0 a b = Ok (occurrences s (sliceN a (b - a) l))) ->
  wm_rank_loop_rel rd w 0 a b = Ok (rank_outcome_rel l a b s).
Proof.
  intros Hb Hl HR. rewrite (rank_loop_rel_min w l k) by now apply wm_built_ok. unfold rank_outcome_rel.
  set (a' := N.min a (lenN l)). set (b' := N.min b (lenN l)).
  assert (Ha : a' <= lenN l) by (unfold a'; lia). assert (Hb' : b' <= lenN l) by (unfold b'; lia). clearbody a' b'.
  assert (Ho : forall x y, x <= y -> y <= lenN l -> occurrences s (sliceN x (y - x) l) < 2 ^ 64).
  { intros x y H1 H2. pose proof (occurrences_le s (sliceN x (y - x) l)) as H. rewrite lenN_sliceN in H by lia. lia. }
  destruct (N.leb_spec a' b') as [L|L].
  - apply rank_loop_rel_same; auto.
  - destruct (rank_loop_rel_swap _ _ _ _ _ _ (HR b' a' ltac:(lia) Ha)) as (x & y & E & Hx & Hc).
    rewrite E. now rewrite (wsub_diff x y _ Hx Hc (Ho b' a' ltac:(lia) Ha)).
Qed.
Theorem C128_rank w l k a b : wm_built w l k -> lenN l < 2 ^ 64 ->
  (forall s, wf s -> lenN (bits s) = k ->
     wm_rank_range_unchecked_rel w a b s = Ok (rank_outcome_rel l a b (value (bits s))) /\
     wm_rank_offset_unchecked_rel w a b s = Ok (rank_outcome_rel l a b (value (bits s))) /\
     wm_rank_unchecked_rel w b s = Ok (occurrences (value (bits s)) (takeN b l))) /\
  (forall s, k <= 64 -> s < 2 ^ 64 ->
     wm_rank_range_u64_unchecked_rel w a b s = Ok (rank_outcome_rel l a b (s mod 2 ^ k)) /\
     wm_rank_offset_u64_unchecked_rel w a b s = Ok (rank_outcome_rel l a b (s mod 2 ^ k)) /\
     wm_rank_u64_unchecked_rel w b s = Ok (occurrences (s mod 2 ^ k) (takeN b l))).
Proof.
  intros Hb Hl.
  assert (Z : forall s, rank_outcome_rel l 0 b s = occurrences s (takeN b l)).
  { intros s. unfold rank_outcome_rel. rewrite N.min_0_l. destruct (N.leb_spec 0 (N.min b (lenN l))); [|lia].
    rewrite N.sub_0_r. f_equal. change (takeN (N.min b (lenN l)) l = takeN b l). apply takeN_min. }
  split.
  - intros s Hs Hk. unfold wm_rank_offset_unchecked_rel, wm_rank_unchecked_rel, wm_rank_range_unchecked_rel.
    rewrite <- Z. rewrite !(rank_rel_any w l k (rd_bv w s) (value (bits s))); auto;
      intros; apply (rank_bv_any w l k Hb); auto.
  - intros s Hk _. unfold wm_rank_offset_u64_unchecked_rel, wm_rank_u64_unchecked_rel, wm_rank_range_u64_unchecked_rel.
    rewrite <- Z. rewrite !(rank_rel_any w l k (rd_u64 w s) (s mod 2 ^ k)); auto;
      intros; apply (rank_u64_any w l k Hb); auto.
Qed.

(** ** Select. *)
Lemma rank_mono b B x y : x <= y -> y <= lenN B -> rank_spec b B x <= rank_spec b B y.
Proof. intros H1 H2. rewrite !(rank_spec_cnt b false) by lia. now apply cnt_lip. Qed.
Lemma select_before b B q a : q < rank_spec b B a -> select_spec b B q < a.
Proof.
  intros Hq. unfold select_spec.
  assert (Hc : rank_spec b B a <= count b B).
  { destruct (N.le_ge_cases (lenN B) a); [now rewrite rank_spec_all|].
    rewrite <- (rank_spec_all b B (lenN B)) by lia. now apply rank_mono. }
  destruct (getN (positions b B) q) as [p|] eqn:E.
  - apply getN_positions in E as (H1 & _ & H3). fold (rank_spec b B p) in H3.
    destruct (N.lt_ge_cases p a) as [|G]; auto. pose proof (rank_mono b B a p G ltac:(lia)). lia.
  - destruct (getN_lt_some (positions b B) q) as [x Hx]; [rewrite lenN_positions; lia|congruence].
Qed.
Lemma count_both (B : list bool) : count false B + count true B = lenN B.
Proof.
  induction B as [|x B IH]; [reflexivity|]. rewrite lenN_cons, <- IH. unfold count. cbn [filter].
  destruct x; cbn [Bool.eqb]; rewrite ?lenN_cons; lia.
Qed.
(** An element of the last level before the first copy of the symbol leads nowhere. *)
Lemma up_before rd ds : forall S level a x e s, enc ds S -> lenN S < 2 ^ 63 -> lenN s = lenN ds -> reads rd level s -> 
  wm_start_loop rd ds level a = Ok x -> e < x ->
  exists p, wm_up_loop_rel rd ds level e = Ok p /\ (p < a \/ p = lenN S).
Proof.
  induction ds as [|d ds IH]; intros S level a x e s HE HS Hs Hr Hx He; cbn [wm_start_loop wm_up_loop_rel] in *.
  - injection Hx as <-. eauto.
  - destruct HE as (_ & L & HE). destruct s as [|bit s]; [cbn in Hs; lia|]. apply reads_cons in Hr as [Hr0 Hr].
    rewrite Hr0 in *. cbn [bind] in *. unfold wm_down in Hx.
    assert (HB : lenN (map hdb S) = lenN S) by apply lenN_map. set (B := map hdb S) in *.
    pose proof (count_both B) as HC. pose proof (lv_rank0 _ _ L) as H0.
    rewrite !lenN_cons' in Hs.
    destruct bit; cbn [bitN N.eqb] in *.
    + rewrite (lv_r1 _ _ L) in Hx. cbn [bind] in Hx.
      destruct (IH (part S) (level + 1) _ x e s HE ltac:(now rewrite lenN_part) ltac:(lia) Hr Hx He) as (p & Ep & Hp).
      rewrite lenN_part in Hp. rewrite Ep. cbn [bind]. rewrite (lv_s1 _ _ L). eexists. split; [reflexivity|].
      assert (Hover : p = lenN S \/ p < rrank0 d -> select_spec true B (wrapping_sub p (rrank0 d)) = lenN S).
      { intros Hor. rewrite <- HB. apply select_spec_over. destruct (N.lt_ge_cases p (rrank0 d)).
        - rewrite wsub_lt by lia. lia.
        - rewrite wsub_ge by lia. lia. }
      destruct Hp as [Hp|Hp]; [|right; auto]. destruct (N.lt_ge_cases p (rrank0 d)) as [Hlt|Hge]; [right; auto|].
      left. pose proof (rank_mono true B a). rewrite wsub_ge; auto.
      * apply select_before. lia.
      * assert (rank_spec true B a <= count true B).
        { destruct (N.le_ge_cases (lenN B) a); [now rewrite rank_spec_all|].
          rewrite <- (rank_spec_all true B (lenN B)) by lia. apply rank_mono; lia. }
        lia.
    + rewrite (lv_r0 _ _ L) in Hx. cbn [bind] in Hx.
      destruct (IH (part S) (level + 1) _ x e s HE ltac:(now rewrite lenN_part) ltac:(lia) Hr Hx He) as (p & Ep & Hp).
      rewrite lenN_part in Hp. rewrite Ep. cbn [bind]. rewrite (lv_s0 _ _ L). eexists. split; [reflexivity|].
      destruct Hp as [Hp|Hp]; [left; now apply select_before|right]. rewrite <- HB. apply select_spec_over. lia.
Qed.
Lemma up_rel_le w l k rd e p : wmok w l k -> wm_up_loop_rel rd w 0 e = Ok p -> p <= lenN l.
Proof.
  intros H. pose proof (wo_pos _ _ _ H). pose proof (wo_bits _ _ _ H) as Hw. pose proof (wo_enc _ _ _ H) as He.
  destruct w as [|d w]; [cbn in Hw; lia|]. destruct He as (_ & L & _). cbn [wm_up_loop_rel].
  destruct (wm_up_loop_rel rd w (0 + 1) e) as [e'| |]; cbn [bind]; try discriminate.
  destruct (rd 0) as [bit| |]; cbn [bind]; try discriminate.
  assert (Hle : forall b q, select_spec b (map hdb (map (word_of k) l)) q <= lenN l).
  { intros b q. etransitivity; [apply select_spec_le|]. rewrite !lenN_map. reflexivity. }
  destruct (bit =? 0).
  - rewrite (lv_s0 _ _ L). intros E. injection E as <-. apply Hle.
  - rewrite (lv_s1 _ _ L). intros E. injection E as <-. apply Hle.
Qed.
(** The occurrence whose number among all occurrences is the number of those before the offset plus
    the rank, modulo 2^64; the length if there is none. *)
Definition select_outcome_rel (l : list N) (o r s : N) : N :=
  match getN (occurrence_positions s 0 l) ((occurrences s (takeN o l) + r) mod 2 ^ 64) with
  | Some p => p
  | None => lenN l
  end.
Lemma select_rel_all w l k rd s o r : wm_built w l k -> lenN l < 2 ^ 63 -> reads rd 0 (word_of k s) -> r < 2 ^ 64 ->
  wm_select_loop_rel rd w o r = Ok (select_outcome_rel l o r (s mod 2 ^ k)).
Proof.
  intros Hb Hl Hr Hr64. pose proof (wm_built_ok _ _ _ Hb) as G. pose proof (wo_enc _ _ _ G) as HE.
  assert (Emin : wm_select_loop_rel rd w o r = wm_select_loop_rel rd w (N.min o (lenN l)) r).
  { unfold wm_select_loop_rel. now rewrite (start_loop_min w l k). }
  rewrite Emin. unfold select_outcome_rel. rewrite <- (takeN_min l o). clear Emin.
  assert (Ho : N.min o (lenN l) <= lenN l) by lia. set (o' := N.min o (lenN l)) in *. clearbody o'. clear o. rename o' into o.
  set (s' := s mod 2 ^ k).
  assert (Fin : forall p j, wm_select_loop_rel rd w o r = Ok p -> wm_found w p = getN (occurrence_positions s' 0 l) j ->
    wm_select_loop_rel rd w o r = Ok (match getN (occurrence_positions s' 0 l) j with Some p => p | None => lenN l end)).
  { intros p j Ep Hp. rewrite Ep. f_equal. rewrite <- Hp. unfold wm_found. rewrite (wm_len_ok _ _ _ G).
    unfold wm_select_loop_rel in Ep. destruct (wm_start_loop rd w 0 o); cbn [bind] in Ep; try discriminate.
    pose proof (up_rel_le w l k rd _ p G Ep). destruct (N.ltb_spec p (lenN l)); auto. lia. }
  pose proof (rank_any w l k G rd s 0 o Hr (N.le_0_l _) Ho) as Hrank.
  change (lenN (filter (N.eqb (s mod 2 ^ k)) (sliceN 0 (o - 0) l))) with (occurrences s' (sliceN 0 (o - 0) l)) in Hrank.
  replace (sliceN 0 (o - 0) l) with (takeN o l) in Hrank by (rewrite N.sub_0_r; reflexivity).
  pose proof (occurrences_le s' (takeN o l)) as Hcl. rewrite lenN_takeN in Hcl.
  set (c := occurrences s' (takeN o l)) in *.
  assert (Hlw : lenN (word_of k s) = lenN w) by (rewrite lenN_word_of; symmetry; apply (wo_bits _ _ _ G)).
  destruct (select_loop_ok rd w 0 (word_of k s) [] (map (word_of k) l) HE) as (x & Ex & Hx & Hup); auto.
  change (lenN []) with 0 in Ex. cbn [app] in Hx. rewrite lenN_map in Hx.
  destruct (start_rank _ _ _ _ _ _ Ex _ Hrank) as (y & Ey & Hxy & Hc).
  destruct (N.lt_ge_cases (c + r) (2 ^ 64)) as [H1|H1].
  - rewrite N.mod_small by auto. destruct (N.lt_ge_cases (y + r) (2 ^ 64)) as [H2|H2].
    + destruct (select_any w l k G rd s 0 (c + r) Hr (N.le_0_l _)) as [(p & Ep & Hp)|[Ep _]].
      * apply (Fin p (c + r)); [|exact Hp]. unfold wm_select_loop in Ep. rewrite Ex in Ep. cbn [bind] in Ep. unfold add64 in Ep.
        destruct (N.ltb_spec (x + (c + r)) U64) as [Hlt|]; [|discriminate]. cbn [bind] in Ep.
        unfold wm_select_loop_rel. rewrite Ey. cbn [bind]. rewrite wadd_lt by auto. replace (y + r) with (x + (c + r)) by lia.
        eapply up_loop_rel; eauto. rewrite lenN_map. lia.
      * exfalso. unfold wm_select_loop in Ep. rewrite Ex in Ep. cbn [bind] in Ep. unfold add64 in Ep.
        destruct (N.ltb_spec (x + (c + r)) U64) as [|Hov]; [|change U64 with (2 ^ 64) in Hov; lia]. cbn [bind] in Ep.
        destruct (Hup (x + (c + r))) as (p & Ep' & _); [lia|congruence].
    + assert (Hy : y < 2 ^ 64) by lia.
      destruct (up_before rd w _ 0 0 x (y + r - 2 ^ 64) (word_of k s) HE) as (p & Ep & Hp); auto; [now rewrite lenN_map|lia|].
      rewrite lenN_map in Hp. destruct Hp as [Hp|Hp]; [lia|subst p].
      unfold wm_select_loop_rel. rewrite Ey. cbn [bind]. rewrite wadd_ge by lia. rewrite Ep. f_equal.
      rewrite getN_ge; auto. unfold occurrence_positions.
      etransitivity; [apply filter_len_le|]. rewrite lenN_range. lia.
  - replace (c + r) with (c + r - 2 ^ 64 + 1 * 2 ^ 64) by lia. rewrite N.mod_add, N.mod_small by lia.
    destruct (select_rel_any w l k rd s o r Hb Hl Hr Ho Hr64 H1) as (p & Ep & Hp). exact (Fin p _ Ep Hp).
Qed.
Theorem C128_select w l k o r : wm_built w l k -> lenN l < 2 ^ 63 -> r < 2 ^ 64 ->
  (forall s, wf s -> lenN (bits s) = k ->
     wm_select_offset_unchecked_rel w o r s = Ok (select_outcome_rel l o r (value (bits s))) /\
     wm_select_unchecked_rel w r s = Ok (match getN (occurrence_positions (value (bits s)) 0 l) r with Some p => p | None => lenN l end)) /\
  (forall s, k <= 64 -> s < 2 ^ 64 ->
     wm_select_offset_u64_unchecked_rel w o r s = Ok (select_outcome_rel l o r (s mod 2 ^ k)) /\
     wm_select_u64_unchecked_rel w r s = Ok (match getN (occurrence_positions (s mod 2 ^ k) 0 l) r with Some p => p | None => lenN l end)).
Proof.
  intros Hb Hl Hr. pose proof (wm_built_ok _ _ _ Hb) as G.
  assert (Z : forall s, match getN (occurrence_positions s 0 l) r with Some p => p | None => lenN l end = select_outcome_rel l 0 r s).
  { intros s. unfold select_outcome_rel. change (occurrences s (takeN 0 l)) with 0. rewrite N.add_0_l, (N.mod_small r) by auto. reflexivity. }
  split.
  - intros s Hs Hk. rewrite Z. unfold wm_select_unchecked_rel, wm_select_offset_unchecked_rel.
    rewrite <- (value_mod k s Hk). split; apply select_rel_all; auto; apply (rd_bv_reads w l); auto; now rewrite <- lenN_bits.
  - intros s Hk _. rewrite Z. unfold wm_select_u64_unchecked_rel, wm_select_offset_u64_unchecked_rel.
    split; apply select_rel_all; auto; now apply (rd_u64_reads w l).
Qed.

(** ** Order statistics. *)
Lemma quantile_loop_rel_min {T} (wr : N -> N -> T -> res T) ds : forall S level a b i t, enc ds S -> lenN S < 2 ^ 64 -> a < 2 ^ 64 -> b < 2 ^ 64 ->
  wm_quantile_loop_rel wr ds level a b i t = wm_quantile_loop_rel wr ds level (N.min a (lenN S)) (N.min b (lenN S)) i t.
Proof.
  induction ds as [|d ds IH]; intros S level a b i t HE HS Ha Hb; [reflexivity|]. cbn [wm_quantile_loop_rel].
  destruct HE as (_ & L & HE). rewrite !(lv_r0 _ _ L). cbn [bind].
  assert (HB : lenN (map hdb S) = lenN S) by apply lenN_map. set (B := map hdb S) in *.
  assert (Em : forall p, rank_spec false B (N.min p (lenN S)) = rank_spec false B p).
  { intros p. unfold rank_spec. now rewrite <- HB, takeN_min. }
  rewrite !Em. destruct (i <? _); destruct (wr _ level t) as [t'| |]; cbn [bind]; auto.
  pose proof (lv_rank0 _ _ L) as H0. pose proof (count_both B) as HC.
  assert (Hone : forall p, p < 2 ^ 64 ->
    wrapping_add (rrank0 d) (wrapping_sub p (rank_spec false B p)) < 2 ^ 64 /\
    wrapping_add (rrank0 d) (wrapping_sub (N.min p (lenN S)) (rank_spec false B p)) =
    N.min (wrapping_add (rrank0 d) (wrapping_sub p (rank_spec false B p))) (lenN (part S))).
  { intros p Hp. rewrite lenN_part. destruct (N.le_ge_cases (lenN S) p) as [G|G].
    - rewrite rank_spec_all by lia. rewrite (N.min_r p) by lia. rewrite !wsub_ge by lia. rewrite !wadd_lt by lia. lia.
    - rewrite N.min_l by auto. pose proof (count_both (takeN p B)) as Hs. rewrite lenN_takeN, HB, N.min_l in Hs by auto.
      fold (rank_spec false B p) (rank_spec true B p) in Hs.
      assert (Hr : rank_spec true B p <= count true B).
      { rewrite <- (rank_spec_all true B (lenN B)) by lia. apply rank_mono; lia. }
      rewrite wsub_ge by lia. rewrite wadd_lt by lia. lia. }
  destruct (Hone a Ha) as [A1 A2], (Hone b Hb) as [B1 B2].
  rewrite (IH (part S)); auto; [|now rewrite lenN_part]. now rewrite A2, B2.
Qed.
Lemma quantile_loop_rel_same {T} (wr : N -> N -> T -> res T) ds : forall S level a b k t, enc ds S -> lenN S < 2 ^ 64 ->
  a <= b -> b <= lenN S -> k < 2 ^ 64 ->
  wm_quantile_loop_rel wr ds level a b k t = wm_quantile_loop wr ds level a b k t.
Proof.
  induction ds as [|d ds IH]; intros S level a b k t HE HS Hba Ha Hk; [reflexivity|]. cbn [wm_quantile_loop wm_quantile_loop_rel].
  destruct HE as (_ & L & HE). rewrite !(lv_r0 _ _ L). cbn [bind].
  assert (HB : lenN (map hdb S) = lenN S) by apply lenN_map. set (B := map hdb S) in *.
  rewrite !(rank_spec_cnt false false) by lia. pose proof (lv_rank0 _ _ L) as H0. rewrite <- (rank_spec_all false B (lenN B)) in H0 by lia.
  rewrite (rank_spec_cnt false false) in H0 by lia. set (f := fun i => Bool.eqb (nthN false B i) false) in *.
  pose proof (cnt_lip f a b ltac:(lia)) as [M1 M2]. pose proof (cnt_lip f b (lenN B) ltac:(lia)) as [M3 M4].
  pose proof (cnt_le f b). pose proof (cnt_le f a). rewrite (sub_ok (cnt f b)) by auto. cbn [bind].
  assert (HP : lenN (part S) = lenN S) by apply lenN_part.
  rewrite (wsub_ge (cnt f b)) by lia. destruct (N.ltb_spec k (cnt f b - cnt f a)).
  - destruct (wr 0 level t) as [t'| |]; cbn [bind]; auto. apply (IH (part S)); auto; lia.
  - destruct (wr 1 level t) as [t'| |]; cbn [bind]; auto. rewrite (sub_ok k) by auto. cbn [bind].
    rewrite (sub_ok b), (sub_ok a) by lia. cbn [bind]. rewrite !wsub_ge by lia. rewrite !wadd_lt by lia. apply (IH (part S)); auto; lia.
Qed.

(** For an inverted range the number is compared with 2^64 minus the number of zeros. *)
Fixpoint lead (n : nat) (S : list word) : N :=
  match n with
  | O => 0
  | S n => if lenN (sel false S) =? 0 then lead n (sel true S) else lenN (sel false S)
  end.
Lemma quantile_empty {T} (wr : N -> N -> T -> res T) ds : forall S1 S3 level i t, enc ds (S1 ++ S3) -> lenN (S1 ++ S3) < 2 ^ 64 ->
  wm_quantile_loop_rel wr ds level (lenN S1) (lenN S1) i t = wm_quantile_loop wr ds level (lenN S1) (lenN S1) 0 t.
Proof.
  induction ds as [|d ds IH]; intros S1 S3 level i t H HS; [reflexivity|]. cbn [wm_quantile_loop wm_quantile_loop_rel].
  destruct H as (_ & L & H). change (S1 ++ S3) with (S1 ++ [] ++ S3) in *. pose proof (lenN_part (S1 ++ [] ++ S3)) as HP.
  pose proof (lenN_sel_split S1) as Hs. assert (HS' := HS). rewrite !lenN_app' in HS'.
  destruct (rank0_ok2 d S1 [] S3 L) as [-> _]. cbn [bind]. rewrite sub_ok, N.sub_diag by lia. cbn [bind]. rewrite (wsub_ge (lenN (sel false S1))), N.sub_diag by lia.
  destruct (N.ltb_spec i 0); [lia|]. change (0 <? 0) with false. cbv iota. destruct (wr 1 level t) as [t'| |]; cbn [bind]; auto.
  destruct (one_bounds d S1 [] S3 L) as (E & _ & E1 & _). rewrite (sub_ok 0 0) by lia. rewrite E. cbn [bind]. rewrite (part_b true) in H, HP.
  rewrite (wsub_ge (lenN S1)) by lia. replace (lenN S1 - lenN (sel false S1)) with (lenN (sel true S1)) by lia.
  rewrite <- HP, lenN_app' in HS. rewrite wadd_lt by lia. rewrite E1. cbn [sel map filter app] in *. apply (IH _ _ _ _ _ H). rewrite lenN_app'. exact HS.
Qed.
Lemma quantile_wrap {T} (wr : N -> N -> T -> res T) ds : forall S1 S2 S3 level j t, enc ds (S1 ++ S2 ++ S3) -> lenN (S1 ++ S2 ++ S3) < 2 ^ 64 ->
  0 < j -> j <= lenN S2 ->
  wm_quantile_loop_rel wr ds level (lenN S1 + lenN S2) (lenN S1) (2 ^ 64 - j) t =
  wm_quantile_loop wr ds level (lenN S1) (lenN S1 + lenN S2) (if j <=? lead (length ds) S2 then lead (length ds) S2 else 0) t.
Proof.
  induction ds as [|d ds IH]; intros S1 S2 S3 level j t H HS Hj0 Hj; [reflexivity|]. pose proof H as H0. cbn [wm_quantile_loop wm_quantile_loop_rel length lead].
  destruct H as (_ & L & H). pose proof (lenN_part (S1 ++ S2 ++ S3)) as HP.
  destruct (rank0_ok2 d S1 S2 S3 L) as [R1 R2]. rewrite R1, R2. cbn [bind]. rewrite sub_ok by lia. cbn [bind].
  replace (lenN (sel false S1) + lenN (sel false S2) - lenN (sel false S1)) with (lenN (sel false S2)) by lia.
  destruct (one_bounds d S1 S2 S3 L) as (B1 & B2 & E1 & E2). pose proof (lenN_sel_split S1) as Hs1. pose proof (lenN_sel_split S2) as Hs2.
  assert (HS' := HS). rewrite !lenN_app' in HS'. assert (HS2 : lenN (part (S1 ++ S2 ++ S3)) < 2 ^ 64) by now rewrite HP. rewrite (part_b true) in HS2, H.
  assert (HS3 := HS2). rewrite !lenN_app' in HS3.
  destruct (N.eqb_spec (lenN (sel false S2)) 0) as [Z|NZ].
  - rewrite Z, N.add_0_r in *. rewrite (wsub_ge (lenN (sel false S1))), N.sub_diag by lia. destruct (N.ltb_spec (2 ^ 64 - j) 0); [lia|].
    set (c := if j <=? _ then _ else _). destruct (N.ltb_spec c 0); [lia|]. destruct (wr 1 level t) as [t'| |]; cbn [bind]; auto.
    rewrite (sub_ok c), B1, B2 by lia. cbn [bind]. rewrite E1, E2. rewrite !wsub_ge by lia.
    replace (lenN S1 - lenN (sel false S1)) with (lenN (sel true S1)) by lia. replace (lenN S1 + lenN S2 - lenN (sel false S1)) with (lenN (sel true S1) + lenN (sel true S2)) by lia.
    rewrite !wadd_lt by lia. rewrite E1, E2, !N.sub_0_r. unfold c. apply (IH _ _ _ _ _ _ H); auto. lia.
  - rewrite wsub_lt by lia. replace (2 ^ 64 - (lenN (sel false S1) + lenN (sel false S2) - lenN (sel false S1))) with (2 ^ 64 - lenN (sel false S2)) by lia.
    destruct (N.leb_spec j (lenN (sel false S2))) as [Le|Gt].
    + destruct (N.ltb_spec (2 ^ 64 - j) (2 ^ 64 - lenN (sel false S2))); [lia|]. destruct (N.ltb_spec (lenN (sel false S2)) (lenN (sel false S2))); [lia|].
      destruct (wr 1 level t) as [t'| |]; cbn [bind]; auto. rewrite (sub_ok (lenN (sel false S2))), B1, B2 by lia. cbn [bind]. rewrite E1, E2. rewrite !wsub_ge by lia.
      replace (lenN S1 - lenN (sel false S1)) with (lenN (sel true S1)) by lia.
      replace (lenN S1 + lenN S2 - (lenN (sel false S1) + lenN (sel false S2))) with (lenN (sel true S1) + lenN (sel true S2)) by lia.
      rewrite !wadd_lt by lia. rewrite E1, E2, N.sub_diag. set (S1' := pre true _ S1) in *. set (S3' := post true _ S3) in *. clearbody S1' S3'.
      destruct (N.eq_dec (lenN (sel true S2)) 0) as [Zt|NZt].
      * rewrite Zt, N.add_0_r. assert (En : sel true S2 = []) by (destruct (sel true S2); [auto|rewrite lenN_cons' in Zt; lia]). rewrite En in *. apply (quantile_empty wr ds S1' S3'); auto.
      * apply (quantile_loop_rel_swap wr ds _ _ _ _ _ _ H HS2); try lia. rewrite !lenN_app'. lia.
    + destruct (N.ltb_spec (2 ^ 64 - j) (2 ^ 64 - lenN (sel false S2))); [|lia]. destruct (N.ltb_spec 0 (lenN (sel false S2))); [|lia].
      destruct (wr 0 level t) as [t'| |]; cbn [bind]; auto. rewrite <- (part_b true) in H, HS2. apply (quantile_loop_rel_swap wr ds _ _ _ _ _ _ H HS2); try lia.
      rewrite HP, !lenN_app'. lia.
Qed.

(** [sl] is the range between the two ends, in order. *)
Definition sorted_between (l : list N) (a b : N) (sl : list N) : Prop :=
  let a := N.min a (lenN l) in
  let b := N.min b (lenN l) in
  Permutation sl (sliceN (N.min a b) (N.max a b - N.min a b) l) /\ Sorted N.le sl.
Definition or_ones (k : N) (o : option N) : N := match o with Some x => x | None => 2 ^ k - 1 end.
Definition inverted (l : list N) (a b : N) : bool := N.min b (lenN l) <? N.min a (lenN l).

(** What the debug loop finds, for every number. *)
Lemma quantile_all w l k a b c sl : wm_built w l k -> a <= b -> b <= lenN l -> Permutation sl (sliceN a (b - a) l) -> Sorted N.le sl ->
  let x := or_ones k (getN sl c) in
  wm_quantile_loop (wr_ones w) w 0 a b c (bv_from_zeros (wm_bits w)) = Ok (bv_of k x) /\ (k <= 64 -> wm_quantile_loop wr_u64 w 0 a b c 0 = Ok x).
Proof.
  intros Hb Hab Lb Hp Hs x. pose proof (wm_built_ok _ _ _ Hb) as G. pose proof (wo_enc _ _ _ G) as HE. unfold x. clear x.
  pose proof (perm_len _ _ Hp) as HL. rewrite lenN_sliceN in HL by lia.
  destruct (N.lt_ge_cases c (b - a)) as [Hlt|Hge].
  - destruct (quantile_bv_any w l k Hb a b c sl ltac:(lia) Lb ltac:(lia) Hp Hs) as (x & Ex & E).
    rewrite Ex. cbn [or_ones]. split.
    + unfold wm_quantile_unchecked in E. rewrite (quant_bv w l k G 0 a b c []) in E; [exact E|apply (rep_bv_new w l k G)|cbn; lia|lia|auto].
    + intros Hk. destruct (quantile_u64_any w l k Hb a b c sl Hk ltac:(lia) Lb ltac:(lia) Hp Hs) as (x' & Ex' & E').
      rewrite Ex in Ex'. injection Ex' as <-. unfold wm_quantile_u64_unchecked in E'.
      rewrite (quant_u64 w l k G 0 a b c [] 0 Hk) in E'; [exact E'|reflexivity|cbn; lia|lia|auto].
  - rewrite getN_ge by lia. cbn [or_ones]. pose proof (wo_bits _ _ _ G) as Hw'.
    destruct (enc_split w l k G a b) as (S1 & S3 & He & L1 & L2 & L3); [auto|auto|]. split.
    + destruct (quantile_over (rep_bv k) (wr_ones w) k (wr_ones_ok w l k G) w [] S1 _ S3 c (bv_from_zeros (wm_bits w)) He)
        as (t' & E & HR); [rewrite Hw'; reflexivity|apply (rep_bv_new w l k G)|lia|].
      change (lenN (@nil bool)) with 0 in E. rewrite L1, L2 in E. replace (a + (b - a)) with b in E by lia.
      rewrite E. f_equal. cbn [app] in HR. rewrite Hw' in HR.
      rewrite (rep_bv_full k (replicate k true) t') by (auto; apply lenN_replicate). now rewrite mval_ones.
    + intros Hk. destruct (quantile_over rep_u64 wr_u64 k (fun b p t => wr_u64_ok k b p t Hk) w [] S1 _ S3 c 0 He)
        as (t' & E & HR); [rewrite Hw'; reflexivity|reflexivity|lia|].
      change (lenN (@nil bool)) with 0 in E. rewrite L1, L2 in E. replace (a + (b - a)) with b in E by lia.
      rewrite E. f_equal. cbn [app] in HR. rewrite Hw' in HR. unfold rep_u64 in HR. now rewrite HR, mval_ones.
Qed.

(** The number of elements without the highest bit that the smallest element [m] lacks. *)
Definition lacking (k m : N) (l : list N) : N := lenN (filter (fun x => negb (N.testbit x (N.log2 (2 ^ k - 1 - m)))) l).
Lemma lacking_le k m l : lacking k m l <= lenN l.
Proof. unfold lacking. induction l as [|x l IH]; [cbn; lia|]. cbn [filter]. destruct (negb _); rewrite !lenN_cons'; lia. Qed.
Lemma word_of_succ k x : word_of (k + 1) x = N.testbit x k :: word_of k x.
Proof.
  unfold word_of. assert (E : lowbits x (k + 1) = lowbits x k ++ [N.testbit x k]).
  { apply (list_ext false); [rewrite lenN_app', !lenN_lowbits; reflexivity|]. intros i Hi. rewrite lenN_lowbits in Hi. rewrite nthN_lowbits by auto.
    rewrite nthN_app, lenN_lowbits. destruct (N.ltb_spec i k); [now rewrite nthN_lowbits|]. assert (i = k) by lia. subst i. rewrite N.sub_diag. reflexivity. }
  rewrite E, rev_app_distr. reflexivity.
Qed.
Lemma sel_words b k l : sel b (map (word_of (k + 1)) l) = map (word_of k) (filter (fun x => Bool.eqb (N.testbit x k) b) l).
Proof. unfold sel. induction l as [|x l IH]; [reflexivity|]. cbn [map filter]. rewrite word_of_succ. unfold hdb at 1. cbn [hd]. destruct (Bool.eqb _ _); cbn [map tl]; now rewrite IH. Qed.
Lemma sel_perm b A B : Permutation A B -> Permutation (sel b A) (sel b B).
Proof. intros H. unfold sel. apply Permutation_map, perm_filter, H. Qed.
Lemma lead_perm n : forall A B, Permutation A B -> lead n A = lead n B.
Proof. induction n as [|n IH]; intros A B H; [reflexivity|]. cbn [lead]. rewrite (perm_len _ _ (sel_perm false _ _ H)). now rewrite (IH _ _ (sel_perm true _ _ H)). Qed.
Lemma lead_lacking k : forall m l, Forall (fun x => x < 2 ^ k) l -> In m l -> Forall (fun x => m <= x) l -> 0 < k ->
  lead (N.to_nat k) (map (word_of k) l) = lacking k m l.
Proof.
  induction k as [|k IH] using N_ind1; intros m l Hl Hm Hx Hk; [lia|]. clear Hk. replace (N.to_nat (k + 1)) with (S (N.to_nat k)) by lia. cbn [lead]. rewrite !sel_words, lenN_map.
  assert (P : 2 ^ (k + 1) = 2 * 2 ^ k) by (rewrite N.add_1_r, N.pow_succ_r'; reflexivity). rewrite Forall_forall in Hl, Hx.
  assert (Hbit : forall x, In x l -> N.testbit x k = (2 ^ k <=? x)).
  { intros x Hi. specialize (Hl x Hi). rewrite N.testbit_eqb. destruct (N.leb_spec (2 ^ k) x) as [L|L].
    - replace x with ((x - 2 ^ k) + 1 * 2 ^ k) by lia. rewrite N.div_add by lia. rewrite N.div_small by lia. reflexivity.
    - rewrite N.div_small by lia. reflexivity. }
  destruct (N.eqb_spec (lenN (filter (fun x => Bool.eqb (N.testbit x k) false) l)) 0) as [Z|NZ].
  - assert (All : forall x, In x l -> 2 ^ k <= x).
    { intros x Hi. destruct (N.leb_spec (2 ^ k) x) as [|L]; [auto|]. exfalso. assert (Hin : In x (filter (fun x => Bool.eqb (N.testbit x k) false) l)).
      { apply filter_In. split; [auto|]. rewrite Hbit by auto. destruct (N.leb_spec (2 ^ k) x); [lia|reflexivity]. }
      destruct (filter _ l); [destruct Hin|rewrite lenN_cons' in Z; lia]. }
    assert (Ef : filter (fun x => Bool.eqb (N.testbit x k) true) l = l).
    { assert (Hf : forall x, In x l -> Bool.eqb (N.testbit x k) true = true) by (intros x Hi; rewrite Hbit by auto; destruct (N.leb_spec (2 ^ k) x) as [|L]; [reflexivity|specialize (All x Hi); lia]).
      clear - Hf. induction l as [|x l IH]; [reflexivity|]. cbn [filter]. rewrite Hf by now left. f_equal. apply IH. intros y Hy. apply Hf. now right. }
    rewrite Ef. assert (Ew : map (word_of k) l = map (word_of k) (map (fun x => x - 2 ^ k) l)).
    { rewrite map_map. apply map_ext_in. intros x Hi. unfold word_of. f_equal. apply (list_ext false); [now rewrite !lenN_lowbits|]. intros i Hk. rewrite lenN_lowbits in Hk. rewrite !nthN_lowbits by auto.
      specialize (All x Hi). replace x with (x - 2 ^ k + 1 * 2 ^ k) at 1 by lia. rewrite <- (N.mod_pow2_bits_low _ k i) by auto. rewrite N.mod_add by (apply N.pow_nonzero; lia). apply N.mod_pow2_bits_low; auto. }
    destruct (N.eq_dec k 0) as [->|Hk0].
    + cbn [N.to_nat lead]. symmetry. unfold lacking. change (2 ^ (0 + 1)) with 2 in *. change (2 ^ 0) with 1 in *.
      assert (Em : m = 1) by (specialize (Hl m Hm); specialize (All m Hm); lia). subst m. change (N.log2 (2 - 1 - 1)) with 0.
      assert (H1 : forall x, In x l -> x = 1) by (intros x Hi; specialize (Hl x Hi); specialize (All x Hi); lia). clear - H1.
      induction l as [|x l IH]; [reflexivity|]. cbn [filter]. rewrite (H1 x) by now left. cbn. apply IH. intros y Hy. apply H1. now right.
    + rewrite Ew. rewrite (IH (m - 2 ^ k)); [|apply Forall_forall|idtac|apply Forall_forall|lia].
      * unfold lacking. specialize (All m Hm) as Am. replace (2 ^ k - 1 - (m - 2 ^ k)) with (2 ^ (k + 1) - 1 - m) by lia. specialize (Hl m Hm) as Lm.
        set (v := 2 ^ (k + 1) - 1 - m). assert (Hq : N.log2 v < k). { destruct (N.eq_dec v 0) as [->|]; [cbn; lia|]. apply N.log2_lt_pow2; unfold v; lia. }
        set (q := N.log2 v) in *. clearbody q. clear - Hq All. induction l as [|x l IH]; [reflexivity|]. cbn [map filter].
        assert (Eb : N.testbit (x - 2 ^ k) q = N.testbit x q).
        { specialize (All x ltac:(now left)). replace x with (x - 2 ^ k + 1 * 2 ^ k) at 2 by lia. rewrite <- (N.mod_pow2_bits_low (x - 2 ^ k + _) k q) by auto. rewrite N.mod_add by (apply N.pow_nonzero; lia). symmetry. apply N.mod_pow2_bits_low; auto. }
        rewrite Eb. assert (I := IH (fun y Hy => All y (or_intror Hy))). destruct (negb _); rewrite ?lenN_cons'; now rewrite I.
      * intros x Hi. apply in_map_iff in Hi as (y & <- & Hy). specialize (Hl y Hy). specialize (All y Hy). lia.
      * apply (in_map (fun x => x - 2 ^ k)), Hm.
      * intros x Hi. apply in_map_iff in Hi as (y & <- & Hy). specialize (Hx y Hy). lia.
  - assert (Sm : m < 2 ^ k).
    { destruct (filter (fun x => Bool.eqb (N.testbit x k) false) l) as [|y r] eqn:E; [exfalso; apply NZ; reflexivity|]. assert (Hin : In y (filter (fun x => Bool.eqb (N.testbit x k) false) l)) by (rewrite E; now left).
      apply filter_In in Hin as [Hy Hf]. rewrite Hbit in Hf by auto. specialize (Hx y Hy). destruct (N.leb_spec (2 ^ k) y); [discriminate|lia]. }
    unfold lacking. assert (Eq : N.log2 (2 ^ (k + 1) - 1 - m) = k) by (apply N.log2_unique; [lia|rewrite <- N.add_1_r; lia]). rewrite Eq.
    reflexivity.
Qed.

(** The element of that number, or all ones if the range has not that many. An inverted range gives
    the smallest element between its ends, except for numbers close to 2^64: let [c] be the number of
    elements that lack the highest bit the smallest one lacks; the [c] highest numbers give the
    smallest of the other elements, or all ones if there is none. *)
Theorem C128_quantile w l k a b i sl : wm_built w l k -> lenN l < 2 ^ 64 -> a < 2 ^ 64 -> b < 2 ^ 64 -> i < 2 ^ 64 -> sorted_between l a b sl ->
  let c := lacking k (hd 0 sl) sl in
  let x := or_ones k (getN sl (if inverted l a b then if 2 ^ 64 - i <=? c then c else 0 else i)) in
  wm_quantile_unchecked_rel w a b i = Ok (bv_of k x) /\ (k <= 64 -> wm_quantile_u64_unchecked_rel w a b i = Ok x).
Proof.
  intros Hb Hl Ha Hb64 Hi [Hp Hs] c x. pose proof (wm_built_ok _ _ _ Hb) as G. pose proof (wo_enc _ _ _ G) as HE.
  assert (HS : lenN (map (word_of k) l) < 2 ^ 64) by now rewrite lenN_map.
  unfold wm_quantile_unchecked_rel, wm_quantile_u64_unchecked_rel.
  rewrite (quantile_loop_rel_min (wr_ones w) w (map (word_of k) l) 0 a b), (quantile_loop_rel_min wr_u64 w (map (word_of k) l) 0 a b) by auto.
  rewrite !lenN_map. unfold x, inverted in *. clear x. pose proof (N.le_min_r a (lenN l)) as La. pose proof (N.le_min_r b (lenN l)) as Lb.
  set (a' := N.min a (lenN l)) in *. set (b' := N.min b (lenN l)) in *. clearbody a' b'. clear a b Ha Hb64.
  pose proof (perm_len _ _ Hp) as HL. rewrite lenN_sliceN in HL by lia.
  destruct (N.ltb_spec b' a') as [Inv|Ord].
  - rewrite N.max_l, N.min_r in * by lia.
    assert (Hc : c <= a' - b') by (rewrite <- HL; apply lacking_le).
    destruct (N.leb_spec (2 ^ 64 - i) (a' - b')) as [Near|Far].
    + destruct (enc_split w l k G b' a') as (S1 & S3 & He & L1 & L2 & L3); [lia|auto|].
      assert (El : lead (length w) (map (word_of k) (sliceN b' (a' - b') l)) = c).
      { unfold c. rewrite <- (lead_perm _ _ _ (Permutation_map (word_of k) Hp)). replace (length w) with (N.to_nat k) by (rewrite <- (wo_bits _ _ _ G); unfold lenN; lia).
        destruct sl as [|m sl]; [cbn in HL; lia|]. cbn [hd]. apply lead_lacking.
        - apply Forall_forall. intros y Hy. apply (Permutation_in _ Hp) in Hy. pose proof (wo_small _ _ _ G) as Hsm. rewrite Forall_forall in Hsm. apply Hsm. destruct (split3 l b' a' ltac:(lia) La) as (T1 & T2 & T3 & ET & _ & ET2 & _). rewrite ET. rewrite ET2 in *. apply in_or_app. right. apply in_or_app. now left.
        - now left.
        - apply Sorted_StronglySorted in Hs; [|intros ? ? ?; apply N.le_trans]. inversion Hs as [|? ? _ HF]; subst. constructor; [lia|auto].
        - pose proof (wo_pos _ _ _ G). lia. }
      assert (W : forall T (wr : N -> N -> T -> res T) t, wm_quantile_loop_rel wr w 0 a' b' i t = wm_quantile_loop wr w 0 b' a' (if 2 ^ 64 - i <=? c then c else 0) t).
      { intros T wr t. pose proof (quantile_wrap wr w S1 _ S3 0 (2 ^ 64 - i) t He) as Q. rewrite L1, L2, El in Q. replace (b' + (a' - b')) with a' in Q by lia. replace (2 ^ 64 - (2 ^ 64 - i)) with i in Q by lia.
        apply Q; [|lia|lia]. rewrite L3. lia. }
      rewrite !W. apply (quantile_all w l k); auto; lia.
    + destruct (N.leb_spec (2 ^ 64 - i) c); [lia|]. rewrite !(quantile_loop_rel_swap _ w _ 0 a' b' i _ HE HS) by (rewrite ?lenN_map; lia). apply (quantile_all w l k); auto; lia.
  - rewrite N.max_r, N.min_l in * by lia. rewrite !(quantile_loop_rel_same _ w _ 0 a' b' i _ HE HS) by (rewrite ?lenN_map; lia). apply (quantile_all w l k); auto; lia.
Qed.
Theorem C128_sorted w l k i sl : wm_built w l k -> lenN l < 2 ^ 64 -> i < 2 ^ 64 -> Permutation sl l -> Sorted N.le sl ->
  wm_get_sorted_unchecked_rel w i = Ok (bv_of k (or_ones k (getN sl i))) /\
  (k <= 64 -> wm_get_sorted_u64_unchecked_rel w i = Ok (or_ones k (getN sl i))).
Proof.
  intros Hb Hl Hi Hp Hs. destruct (len_bits_eqs _ _ _ Hb) as [E1 _].
  unfold wm_get_sorted_unchecked_rel, wm_get_sorted_u64_unchecked_rel. rewrite E1.
  assert (HB : sorted_between l 0 (lenN l) sl).
  { unfold sorted_between. rewrite N.min_0_l, N.min_id, N.min_0_l, N.max_0_l, slice_all. auto. }
  pose proof (C128_quantile w l k 0 (lenN l) i sl Hb Hl ltac:(lia) Hl Hi HB) as Q.
  unfold inverted in Q. rewrite N.min_0_l, N.min_id in Q. destruct (N.ltb_spec (lenN l) 0); [lia|]. exact Q.
Qed.
(** Minimum, maximum and median. The largest element is only found for a proper range; a range that
    ends beyond the last element has all ones for its maximum. *)
Theorem C128_extremes w l k a b sl : wm_built w l k -> lenN l < 2 ^ 63 -> a < 2 ^ 64 -> b < 2 ^ 64 -> sorted_between l a b sl ->
  let least := or_ones k (getN sl 0) in
  let most := if a <? b then if b <=? lenN l then or_ones k (getN sl (b - a - 1)) else 2 ^ k - 1 else least in
  let middle := if a <? b then or_ones k (getN sl ((b - a - 1) / 2)) else least in
  (wm_range_min_unchecked_rel w a b = Ok (bv_of k least) /\
   wm_range_max_unchecked_rel w a b = Ok (bv_of k most) /\
   wm_range_median_unchecked_rel w a b = Ok (bv_of k middle)) /\
  (k <= 64 ->
   wm_range_min_u64_unchecked_rel w a b = Ok least /\
   wm_range_max_u64_unchecked_rel w a b = Ok most /\
   wm_range_median_u64_unchecked_rel w a b = Ok middle).
Proof.
  intros Hb Hl Ha Hb64 HB least most middle.
  assert (HL : lenN sl = N.max (N.min a (lenN l)) (N.min b (lenN l)) - N.min (N.min a (lenN l)) (N.min b (lenN l))).
  { destruct HB as [Hp _]. rewrite (perm_len _ _ Hp), lenN_sliceN; auto. lia. }
  assert (Q : forall i, i < 2 ^ 64 -> i < 2 ^ 64 - (N.min a (lenN l) - N.min b (lenN l)) ->
    let x := or_ones k (getN sl (if inverted l a b then 0 else i)) in
    wm_quantile_unchecked_rel w a b i = Ok (bv_of k x) /\ (k <= 64 -> wm_quantile_u64_unchecked_rel w a b i = Ok x)).
  { intros i H1 H2. pose proof (C128_quantile w l k a b i sl Hb ltac:(lia) Ha Hb64 H1 HB) as Q. cbv zeta in Q.
    pose proof (lacking_le k (hd 0 sl) sl) as Hc. unfold inverted in *. destruct (N.ltb_spec (N.min b (lenN l)) (N.min a (lenN l))); [|exact Q].
    destruct (N.leb_spec (2 ^ 64 - i) (lacking k (hd 0 sl) sl)); [lia|exact Q]. }
  cbv zeta in Q.
  destruct (Q 0) as [A1 A2]; [lia|lia|].
  assert (El : (if inverted l a b then 0 else 0) = 0) by now destruct (inverted l a b).
  rewrite El in *. clear El. fold least in A1, A2.
  set (im := wrapping_sub (wrapping_sub b a) 1). set (id := wrapping_sub (wrapping_sub b 1) a / 2).
  assert (Him : im = if a <? b then b - a - 1 else 2 ^ 64 - (a - b) - 1).
  { unfold im. destruct (N.ltb_spec a b).
    - rewrite (wsub_ge b) by lia. rewrite wsub_ge by lia. reflexivity.
    - destruct (N.eq_dec a b) as [->|].
      + rewrite (wsub_ge b) by lia. rewrite wsub_lt by lia. lia.
      + rewrite (wsub_lt b) by lia. rewrite wsub_ge by lia. reflexivity. }
  assert (Hid : id = if a <? b then (b - a - 1) / 2 else (2 ^ 64 - (a - b) - 1) / 2).
  { unfold id. destruct (N.ltb_spec a b).
    - rewrite (wsub_ge b) by lia. rewrite wsub_ge by lia. f_equal. lia.
    - destruct (N.eq_dec b 0) as [->|].
      + rewrite (wsub_lt 0) by lia. rewrite wsub_ge by lia. f_equal. lia.
      + rewrite (wsub_ge b) by lia. rewrite wsub_lt by lia. f_equal. lia. }
  assert (Cm : or_ones k (getN sl (if inverted l a b then 0 else im)) = most).
  { unfold most, inverted. rewrite Him. destruct (N.ltb_spec a b) as [L|L].
    - destruct (N.ltb_spec (N.min b (lenN l)) (N.min a (lenN l))); [lia|]. destruct (N.leb_spec b (lenN l)); auto.
      rewrite getN_ge by lia. reflexivity.
    - unfold least. destruct (N.ltb_spec (N.min b (lenN l)) (N.min a (lenN l))); auto. rewrite !getN_ge by lia. reflexivity. }
  assert (Cd : or_ones k (getN sl (if inverted l a b then 0 else id)) = middle).
  { unfold middle, inverted. rewrite Hid. destruct (N.ltb_spec a b) as [L|L].
    - destruct (N.ltb_spec (N.min b (lenN l)) (N.min a (lenN l))); [lia|]. reflexivity.
    - unfold least. destruct (N.ltb_spec (N.min b (lenN l)) (N.min a (lenN l))); auto. rewrite !getN_ge by lia. reflexivity. }
  destruct (Q im) as [B1 B2]; [rewrite Him; destruct (N.ltb_spec a b); lia|rewrite Him; destruct (N.ltb_spec a b); lia|].
  destruct (Q id) as [D1 D2].
  { rewrite Hid. destruct (N.ltb_spec a b); apply N.div_lt_upper_bound; lia. }
  { rewrite Hid. destruct (N.ltb_spec a b); apply N.div_lt_upper_bound; lia. }
  rewrite Cm in *. rewrite Cd in *. split; [auto|intros Hk; auto].
Qed.

(** The sequence is 3, 1, 0, 5, 5, 2, 7, 5. *)
Example C128_ex :
  wm_rank_range_u64_unchecked_rel ex_wm 100 3 5 = Ok (2 ^ 64 - 3) /\
  wm_select_offset_u64_unchecked_rel ex_wm 5 (2 ^ 64 - 1) 5 = Ok 4 /\
  wm_select_offset_u64_unchecked_rel ex_wm 5 (2 ^ 64 - 3) 5 = Ok 8 /\
  wm_quantile_u64_unchecked_rel ex_wm 3 100 1 = Ok 5 /\ wm_quantile_u64_unchecked_rel ex_wm 2 4 7 = Ok 7 /\
  wm_range_max_u64_unchecked_rel ex_wm 0 9 = Ok 7 /\ wm_range_max_u64_unchecked_rel ex_wm 2 6 = Ok 5 /\
  wm_range_max_u64_unchecked_rel ex_wm 6 3 = Ok 2 /\ wm_range_median_u64_unchecked_rel ex_wm 3 100 = Ok 7 /\
  wm_range_median_u64_unchecked_rel ex_wm 6 0 = Ok 0 /\
  wm_quantile_u64_unchecked_rel ex_wm 5 1 (2 ^ 64 - 3) = Ok 0 /\ wm_quantile_u64_unchecked_rel ex_wm 5 1 (2 ^ 64 - 2) = Ok 5 /\
  lacking 3 0 [0; 1; 5; 5] = 2 /\ wm_quantile_u64_unchecked_rel ex_wm 3 0 (2 ^ 64 - 1) = Ok 7.
Proof. vm_compute. auto 20. Qed.
