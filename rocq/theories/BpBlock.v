(** * Block scans and the two searches of the tree. *)
From Verif Require Import Base Spec BaseFacts WordFacts BitVecModel BitVecProofs RsVecModel RsVecProofs RsVecSelect RsEqProofs
  BpModel BpExcess BpMmt BpSearch.

Lemma forM_ret_map {A C S R} (g : A -> C) (l : list A) (f : S -> C -> res (S + R)) s :
  forM_ret (map g l) s f = forM_ret l s (fun s x => f s (g x)).
Proof.
  revert s. induction l as [|a l IH]; intros s; [reflexivity|]. cbn [map forM_ret]. destruct (f s (g a)) as [[s'|r]| |]; cbn [bind]; auto.
Qed.
Lemma forM_ret_rev_range_inv {S R} (P : N -> S -> Prop) (Q : R -> Prop) a b s (f : S -> N -> res (S + R)) :
  a <= b -> P b s ->
  (forall i s, a <= i -> i < b -> P (i + 1) s ->
     (exists s', f s i = Ok (inl s') /\ P i s') \/ (exists r, f s i = Ok (inr r) /\ Q r)) ->
  (exists s', forM_ret (rev (range a b)) s f = Ok (inl s') /\ P a s') \/
  (exists r, forM_ret (rev (range a b)) s f = Ok (inr r) /\ Q r).
Proof.
  intros Hab HP Hstep. remember (N.to_nat (b - a)) as n eqn:En. revert b s Hab HP Hstep En.
  induction n as [|n IH]; intros b s Hab HP Hstep En.
  - assert (a = b) by lia. subst. rewrite range_nil by lia. cbn. eauto.
  - rewrite range_snoc by lia. rewrite rev_app_distr. cbn [rev app forM_ret].
    destruct (Hstep (b - 1) s) as [(s1 & E1 & HP1)|(r & E1 & Hr)]; try lia; [now replace (b - 1 + 1) with b by lia| |]; rewrite E1; cbn [bind]; eauto.
    apply IH; auto; try lia. intros i s2 H1 H2. apply Hstep; lia.
Qed.

Lemma align_lt b z w c : b * (z * w) < c * w -> b * z < c.
Proof. intros H. destruct (N.lt_ge_cases (b * z) c) as [|Hc]; auto. pose proof (N.mul_le_mono_r _ _ w Hc). lia. Qed.
Lemma align_le b B c z : b * B < c * (z * B) -> (b + 1) * B <= c * (z * B).
Proof. rewrite N.mul_assoc. intros H. apply N.mul_le_mono_r. destruct (N.lt_ge_cases b (c * z)) as [|Hc]; [lia|]. pose proof (N.mul_le_mono_r _ _ B Hc). lia. Qed.

Section Block.
Variables (lk : lookup) (bv : bitvec) (rs : rsvec) (B : N) (T : Z).
Hypothesis Hlk : lookup_ok lk.
Hypothesis Hwf : wf bv.
Hypothesis G : rs_good bv rs.
Hypothesis HB : 0 < B.
Hypothesis HT : forall p, (Z.abs (T - excess_before (bits bv) p) <= 9223372036854775807)%Z.
Local Notation l := (bits bv).
Local Notation L := (lenN (bits bv)).
Local Notation E := (excess_before (bits bv)).
Local Notation w := (lk_size lk).

Lemma get_bit i : i < L -> rs_get_unchecked rs i = Ok (bitN (nthN false l i)).
Proof using Hlk Hwf G HB HT. rewrite lenN_bits. intros Hi. rewrite (rs_get_unchecked_ok bv) by auto. now rewrite nthN_bits. Qed.
Lemma get_word i : i + w <= L -> exists b, limbs_get_bits_unchecked (rdata rs) i w = Ok (value b) /\ b = sliceN i w l /\ lenN b = w.
Proof using Hlk Hwf G HB HT.
  intros Hi. exists (sliceN i w l). split; [|split; [reflexivity|apply lenN_sliceN; auto]]. rewrite lenN_bits in Hi. rewrite (good_data _ _ G).
  pose proof (lko_pos _ Hlk). pose proof (lko_max _ Hlk). rewrite limbs_get_bits_ok; [|apply Hwf|lia|lia|].
  - f_equal. f_equal. apply list_ext with (d := false); [rewrite lenN_bools, lenN_sliceN; auto; rewrite lenN_bits; auto|]. intros k Hk. rewrite lenN_bools in Hk.
    rewrite nthN_bools by auto. rewrite nthN_sliceN by auto. rewrite nthN_bits by lia. reflexivity.
  - destruct Hwf as [-> _]. apply N.div_le_mono; lia.
Qed.

(** ** Forward *)
Definition fscan (a b : N) (r : res (Z + N)) : Prop :=
  (exists i, r = Ok (inr i) /\ a <= i /\ i < b /\ E (i + 1) = T /\ forall j, a <= j -> j < i -> E (j + 1) <> T) \/
  (r = Ok (inl (T - E b)%Z) /\ forall j, a <= j -> j < b -> E (j + 1) <> T).
Lemma fscan_bits a b : a <= b -> b <= L -> fscan a b (forM_ret (range a b) (T - E a)%Z (scan_fwd rs)).
Proof using Hlk Hwf G HB HT.
  intros Hab HbL.
  destruct (forM_ret_range_inv (fun i (s : Z) => s = (T - E i)%Z /\ forall j, a <= j -> j < i -> E (j + 1) <> T)
              (fun i => a <= i /\ i < b /\ E (i + 1) = T /\ forall j, a <= j -> j < i -> E (j + 1) <> T) a b (T - E a)%Z (scan_fwd rs))
    as [(s & Es & -> & Hn)|(r & Er & Hr)]; [exact Hab|split; [reflexivity|intros; lia]| | |].
  - intros i s H1 H2 [-> Hn]. unfold scan_fwd. rewrite get_bit by lia. cbn [bind].
    assert (Ex : (T - E i - (if (bitN (nthN false l i) =? 1)%N then 1 else -1))%Z = (T - E (i + 1))%Z) by (rewrite ex_succ by lia; unfold paren; destruct (nthN false l i); cbn; lia).
    rewrite Ex, i64_ok by auto. cbn [bind]. destruct (Z.eqb_spec (T - E (i + 1)) 0).
    + right. exists i. split; [reflexivity|]. repeat split; auto; lia.
    + left. eexists. split; [reflexivity|]. split; [reflexivity|]. intros j J1 J2. destruct (N.eq_dec j i) as [->|]; [lia|apply Hn; lia].
  - right. auto.
  - left. exists r. split; [exact Er|]. exact Hr.
Qed.
Lemma fscan_words a k : a + k * w <= L -> fscan a (a + k * w) (forM_ret (steps a (a + k * w) w) (T - E a)%Z (look_step w (lk_fwd lk) rs)).
Proof using Hlk Hwf G HB HT.
  intros HkL. pose proof (lko_pos _ Hlk) as Hw. unfold steps. replace (div_ceil (a + k * w - a) w) with k.
  2:{ unfold div_ceil. apply N.div_unique with (r := w - 1); lia. }
  rewrite forM_ret_map.
  destruct (forM_ret_range_inv (fun q (s : Z) => s = (T - E (a + q * w))%Z /\ forall j, a <= j -> j < a + q * w -> E (j + 1) <> T)
              (fun i => a <= i /\ i < a + k * w /\ E (i + 1) = T /\ forall j, a <= j -> j < i -> E (j + 1) <> T) 0 k (T - E a)%Z (fun s x => look_step w (lk_fwd lk) rs s (a + x * w)))
    as [(s & Es & -> & Hn)|(r & Er & Hr)]; [lia|split; [f_equal; f_equal; lia|intros; lia]| | |].
  - intros q s _ Hq [-> Hn]. unfold look_step. assert (HqL : a + q * w + w <= L) by nia. destruct (get_word _ HqL) as (b & Eb & Hb & Hlb). rewrite Eb. cbn [bind].
    assert (Hv : value b <? 2 ^ w = true) by (apply N.ltb_lt; rewrite <- Hlb; apply value_lt). rewrite Hv. cbn [assert bind].
    assert (Hex : forall x, x <= w -> excess_before b x = (E (a + q * w + x) - E (a + q * w))%Z) by (intros x Hx; rewrite Hb; apply ex_slice; auto).
    pose proof (lko_fwd _ Hlk b (T - E (a + q * w)) Hlb) as HF. rewrite Hlb, Hex in HF by lia.
    destruct HF as [(x & Ex & H1 & H2 & H3)|(Ex & H1)]; [replace (T - E (a + q * w) - (E (a + q * w + w) - E (a + q * w)))%Z with (T - E (a + q * w + w))%Z by lia; apply HT| |]; rewrite Ex; cbn [bind].
    + right. eexists. split; [reflexivity|]. rewrite Hlb in H1. rewrite Hex in H2 by lia. rewrite N.add_assoc in H2. split; [lia|]. split; [nia|]. split; [lia|].
      intros j J1 J2. destruct (N.ltb_spec j (a + q * w)); [apply Hn; auto|]. specialize (H3 (j - (a + q * w)) ltac:(lia)). rewrite Hex in H3 by lia.
      replace (a + q * w + (j - (a + q * w) + 1)) with (j + 1) in H3 by lia. lia.
    + left. eexists. split; [reflexivity|]. rewrite Hlb, Hex by lia. replace (a + (q + 1) * w) with (a + q * w + w) by lia. split; [lia|].
      intros j J1 J2. destruct (N.ltb_spec j (a + q * w)); [apply Hn; auto|]. specialize (H1 (j - (a + q * w)) ltac:(lia)). rewrite Hex in H1 by lia.
      replace (a + q * w + (j - (a + q * w) + 1)) with (j + 1) in H1 by lia. lia.
  - right. auto.
  - left. exists r. auto.
Qed.
Lemma fscan_bind a m b r f : a <= m -> m <= b -> fscan a m r -> fscan m b (f (T - E m)%Z) ->
  fscan a b (let* r := r in match r with inr i => Ok (inr i) | inl rel => f rel end).
Proof using Hlk Hwf G HB HT.
  intros H1 H2 [(i & -> & I1 & I2 & I3 & I4)|[-> Hn]] H; cbn [bind].
  - left. exists i. repeat split; auto. lia.
  - destruct H as [(i & -> & I1 & I2 & I3 & I4)|[-> Hn2]].
    + left. exists i. repeat split; auto; try lia. intros j J1 J2. destruct (N.ltb_spec j m); [apply Hn|apply I4]; auto.
    + right. split; [reflexivity|]. intros j J1 J2. destruct (N.ltb_spec j m); [apply Hn|apply Hn2]; auto.
Qed.
Lemma fwd_block_ok m start block : start + 1 <= N.min ((block + 1) * B) L ->
  fscan (start + 1) (N.min ((block + 1) * B) L) (bp_fwd_search_block lk B (mkbp rs m) start block (T - E (start + 1))).
Proof using Hlk Hwf G HB HT.
  intros Hs. unfold bp_fwd_search_block. cbn [bp_vec]. rewrite (good_len _ _ G), <- (lenN_bits bv). set (bd := N.min ((block + 1) * B) L) in *. pose proof (lko_pos _ Hlk) as Hw.
  assert (HbdL : bd <= L) by (unfold bd; lia). set (c := div_ceil (start + 1) w). assert (Hc : start + 1 <= c * w).
  { unfold c, div_ceil. pose proof (N.div_mod' (start + 1 + w - 1) w). pose proof (N.mod_lt (start + 1 + w - 1) w). nia. }
  set (lb := N.min (c * w) bd). assert (Hlb : start + 1 <= lb /\ lb <= bd) by (unfold lb; lia).
  apply fscan_bind with (m := lb); [lia|lia|apply fscan_bits; lia|].
  assert (Hub : exists k, N.max lb (bd / w * w) = lb + k * w /\ lb + k * w <= bd).
  { pose proof (N.mul_div_le bd w) as Hd. destruct (N.leb_spec bd (c * w)) as [Hle|Hle].
    - exists 0. unfold lb. replace (N.min (c * w) bd) with bd by lia. lia.
    - exists (bd / w - c). unfold lb. replace (N.min (c * w) bd) with (c * w) by lia. assert (c <= bd / w) by (apply N.div_le_lower_bound; lia). nia. }
  destruct Hub as (k & -> & Hk). apply fscan_bind with (m := lb + k * w); [lia|lia|apply fscan_words; lia|apply fscan_bits; lia].
Qed.

(** ** Backward *)
Definition bscan (a b : N) (r : res (Z + N)) : Prop :=
  (exists i, r = Ok (inr i) /\ a <= i /\ i < b /\ E i = T /\ forall j, i < j -> j < b -> E j <> T) \/
  (r = Ok (inl (T - E a)%Z) /\ forall j, a <= j -> j < b -> E j <> T).
Lemma bscan_bits a b : a <= b -> b <= L -> bscan a b (forM_ret (rev (range a b)) (T - E b)%Z (scan_bwd rs)).
Proof using Hlk Hwf G HB HT.
  intros Hab HbL.
  destruct (forM_ret_rev_range_inv (fun i (s : Z) => s = (T - E i)%Z /\ forall j, i <= j -> j < b -> E j <> T)
              (fun i => a <= i /\ i < b /\ E i = T /\ forall j, i < j -> j < b -> E j <> T) a b (T - E b)%Z (scan_bwd rs))
    as [(s & Es & -> & Hn)|(r & Er & Hr)]; [exact Hab|split; [reflexivity|intros; lia]| | |].
  - intros i s H1 H2 [-> Hn]. unfold scan_bwd. rewrite get_bit by lia. cbn [bind].
    assert (Ex : (T - E (i + 1) + (if (bitN (nthN false l i) =? 1)%N then 1 else -1))%Z = (T - E i)%Z) by (rewrite ex_succ by lia; unfold paren; destruct (nthN false l i); cbn; lia).
    rewrite Ex, i64_ok by auto. cbn [bind]. destruct (Z.eqb_spec (T - E i) 0).
    + right. exists i. split; [reflexivity|]. split; [auto|]. split; [auto|]. split; [lia|]. intros j J1 J2. apply Hn; lia.
    + left. eexists. split; [reflexivity|]. split; [reflexivity|]. intros j J1 J2. destruct (N.eq_dec j i) as [->|]; [lia|apply Hn; lia].
  - right. auto.
  - left. exists r. split; [exact Er|]. exact Hr.
Qed.
Lemma bscan_words a k : a + k * w <= L -> (T - E (a + k * w) <> 0)%Z ->
  bscan a (a + k * w) (forM_ret (rev (steps a (a + k * w) w)) (T - E (a + k * w))%Z (look_step w (lk_bwd lk) rs)).
Proof using Hlk Hwf G HB HT.
  intros HkL Hr0. pose proof (lko_pos _ Hlk) as Hw. unfold steps. replace (div_ceil (a + k * w - a) w) with k.
  2:{ unfold div_ceil. apply N.div_unique with (r := w - 1); lia. }
  rewrite <- map_rev, forM_ret_map.
  destruct (forM_ret_rev_range_inv (fun q (s : Z) => s = (T - E (a + q * w))%Z /\ s <> 0%Z /\ forall j, a + q * w <= j -> j < a + k * w -> E j <> T)
              (fun i => a <= i /\ i < a + k * w /\ E i = T /\ forall j, i < j -> j < a + k * w -> E j <> T) 0 k (T - E (a + k * w))%Z (fun s x => look_step w (lk_bwd lk) rs s (a + x * w)))
    as [(s & Es & -> & Hn0 & Hn)|(r & Er & Hr)]; [lia|split; [reflexivity|split; [auto|intros; lia]]| | |].
  - intros q s _ Hq [-> [Hne Hn]]. replace (a + (q + 1) * w) with (a + q * w + w) in * by lia. unfold look_step. assert (HqL : a + q * w + w <= L) by nia. destruct (get_word _ HqL) as (b & Eb & Hb & Hlb). rewrite Eb. cbn [bind].
    assert (Hv : value b <? 2 ^ w = true) by (apply N.ltb_lt; rewrite <- Hlb; apply value_lt). rewrite Hv. cbn [assert bind].
    assert (Hex : forall x, x <= w -> excess_before b x = (E (a + q * w + x) - E (a + q * w))%Z) by (intros x Hx; rewrite Hb; apply ex_slice; auto).
    pose proof (lko_bwd _ Hlk b (T - E (a + q * w + w)) Hlb Hne) as HF. unfold bwd_answer in HF. rewrite Hlb, Hex in HF by lia.
    replace (T - E (a + q * w + w)%N + (E (a + q * w + w)%N - E (a + q * w)%N))%Z with (T - E (a + q * w)%N)%Z in HF by lia.
    destruct HF as [(x & Ex & H1 & H2 & H3)|(Ex & H1)]; [apply HT| |]; rewrite Ex; cbn [bind].
    + right. eexists. split; [reflexivity|]. rewrite Hex in H2 by lia. split; [lia|]. split; [nia|]. split; [lia|].
      intros j J1 J2. destruct (N.leb_spec (a + q * w + w) j); [apply Hn; auto|]. specialize (H3 (j - (a + q * w)) ltac:(lia)). rewrite Hex in H3 by lia.
      replace (a + q * w + (j - (a + q * w))) with j in H3 by lia. lia.
    + left. eexists. split; [reflexivity|]. split; [reflexivity|].
      assert (Hall : forall j, a + q * w <= j -> j < a + q * w + w -> E j <> T).
      { intros j J1 J2. specialize (H1 (j - (a + q * w)) ltac:(lia)). rewrite Hex in H1 by lia. replace (a + q * w + (j - (a + q * w))) with j in H1 by lia. lia. }
      split; [specialize (Hall (a + q * w) ltac:(lia) ltac:(lia)); lia|].
      intros j J1 J2. destruct (N.leb_spec (a + q * w + w) j); [apply Hn; auto|apply Hall; auto].
  - right. replace (a + 0 * w) with a in * by lia. auto.
  - left. exists r. auto.
Qed.
Lemma bscan_bind a m b r f : a <= m -> m <= b -> bscan m b r -> ((forall j, m <= j -> j < b -> E j <> T) -> bscan a m (f (T - E m)%Z)) ->
  bscan a b (let* r := r in match r with inr i => Ok (inr i) | inl rel => f rel end).
Proof using Hlk Hwf G HB HT.
  intros H1 H2 [(i & -> & I1 & I2 & I3 & I4)|[-> Hn]] H; cbn [bind].
  - left. exists i. repeat split; auto. lia.
  - destruct (H Hn) as [(i & -> & I1 & I2 & I3 & I4)|[-> Hn2]].
    + left. exists i. repeat split; auto; try lia. intros j J1 J2. destruct (N.ltb_spec j m); [apply I4|apply Hn]; auto.
    + right. split; [reflexivity|]. intros j J1 J2. destruct (N.ltb_spec j m); [apply Hn2|apply Hn]; auto.
Qed.
Hypothesis Hal : B mod lk_size lk = 0 \/ lk_size lk mod B = 0.
Lemma bwd_block_ok m start block : block * B < start -> start <= (block + 1) * B -> start <= L ->
  bscan (block * B) start (bp_bwd_search_block lk B (mkbp rs m) start block (T - E start)).
Proof using Hlk Hwf G HB HT Hal.
  intros Hs1 Hs2 HsL. unfold bp_bwd_search_block. cbn [bp_vec]. rewrite (good_len _ _ G), <- (lenN_bits bv). replace (N.min (block * B) L) with (block * B) by lia.
  rewrite sub_ok by lia. cbn [bind]. pose proof (lko_pos _ Hlk) as Hw. pose proof (N.mul_div_le (start - 1) w) as Hd. set (c := (start - 1) / w) in *.
  set (lb := N.max (c * w) (block * B)). assert (Hlb : block * B <= lb /\ lb < start) by (unfold lb; lia).
  apply bscan_bind with (m := lb); [lia|lia|apply bscan_bits; lia|]. intros Hn.
  assert (Hk : exists k, lb = block * B + k * w).
  { destruct (N.leb_spec (c * w) (block * B)) as [Hle|Hle]; [exists 0; unfold lb; lia|]. destruct Hal as [Ha|Ha].
    - apply N.mod_divide in Ha; [|lia]. destruct Ha as (z & Hz). exists (c - block * z). unfold lb. rewrite Hz in Hle |- *. assert (block * z < c) by (apply (align_lt _ _ w); exact Hle). rewrite N.max_l by lia. rewrite N.mul_sub_distr_r. rewrite N.mul_assoc in Hle |- *. lia.
    - exfalso. apply N.mod_divide in Ha; [|lia]. destruct Ha as (z & Hz). assert (Hc : (block + 1) * B <= c * w) by (rewrite Hz in Hle |- *; apply align_le; exact Hle). clear - Hc Hd Hs1 Hs2 Hw. lia. }
  destruct Hk as (k & Ek). rewrite Ek in *.
  apply bscan_words; [lia|]. pose proof (Hn (block * B + k * w)). lia.
Qed.
End Block.

(** ** The two searches *)
Definition fwd_result (l : list bool) (i : N) (d : Z) (o : option N) : Prop :=
  match o with
  | Some j => i < j /\ j < lenN l /\ excess_before l (j + 1) = (excess_before l (i + 1) + d)%Z /\
      forall k, i < k -> k < j -> excess_before l (k + 1) <> (excess_before l (i + 1) + d)%Z
  | None => forall k, i < k -> k < lenN l -> excess_before l (k + 1) <> (excess_before l (i + 1) + d)%Z
  end.
Definition bwd_result (l : list bool) (i : N) (d : Z) (o : option N) : Prop :=
  match o with
  | Some j => j < i /\ excess_before l j = (excess_before l i + d)%Z /\
      forall k, j < k -> k < i -> excess_before l k <> (excess_before l i + d)%Z
  | None => forall k, k < i -> excess_before l k <> (excess_before l i + d)%Z
  end.

Lemma bp_from_ok B bv : wf bv -> 0 < B -> exists t, bp_from_bit_vector B bv = Ok t /\ rs_good bv (bp_vec t) /\ (0 < blen bv -> mmt_ok (bits bv) B (bp_mmt t)).
Proof.
  intros Hwf HB. unfold bp_from_bit_vector. destruct (rs_from_bit_vec_ok bv Hwf) as (rs & Ers & G).
  destruct (N.eq_dec (blen bv) 0) as [E0|E0].
  - unfold mmt_excess_tree. rewrite (proj2 (N.eqb_eq _ _) E0). cbn [bind]. rewrite Ers. cbn [bind]. eexists. split; [reflexivity|]. split; [exact G|lia].
  - destruct (mmt_excess_tree_ok bv B Hwf HB ltac:(lia)) as (nodes & En & Hm). rewrite En. cbn [bind]. rewrite Ers. cbn [bind]. eexists. split; [reflexivity|]. auto.
Qed.
Record bp_good (B : N) (bv : bitvec) (t : bptree) : Prop := {
  bg_wf : wf bv;
  bg_B : 0 < B;
  bg_rs : rs_good bv (bp_vec t);
  bg_mmt : 0 < blen bv -> mmt_ok (bits bv) B (bp_mmt t) }.
Lemma bp_built B bv t : wf bv -> 0 < B -> bp_from_bit_vector B bv = Ok t -> bp_good B bv t.
Proof. intros Hwf HB Et. destruct (bp_from_ok B bv Hwf HB) as (t' & Et' & G & Hm). rewrite Et in Et'. injection Et' as <-. split; auto. Qed.

Lemma bp_fwd_search_ok lk B bv t i d : lookup_ok lk -> bp_good B bv t -> 0 < blen bv -> (Z.abs d + Z.of_N (blen bv) <= 9223372036854775807)%Z ->
  exists o, bp_fwd_search lk B t i d = Ok o /\ fwd_result (bits bv) i d o.
Proof.
  intros Hlk [Hwf HB G Hm] HL Hd. specialize (Hm HL). destruct t as [rs m]. cbn [bp_vec bp_mmt] in *.
  unfold bp_fwd_search. cbn [bp_vec bp_mmt]. rewrite (good_len _ _ G), <- (lenN_bits bv) in *. set (l := bits bv) in *. rewrite sub_ok by lia. cbn [bind].
  destruct (N.leb_spec (lenN l - 1) i) as [Hi|Hi]; [exists None; split; [reflexivity|]; cbn; intros; lia|].
  set (T := (excess_before l (i + 1) + d)%Z). assert (HT : forall p, (Z.abs (T - excess_before l p) <= 9223372036854775807)%Z).
  { intros p. pose proof (ex_len l (i + 1) p). unfold T. lia. }
  set (block := (i + 1) / B). pose proof (N.div_mod' (i + 1) B) as Hdm. pose proof (N.mod_lt (i + 1) B ltac:(lia)) as Hml. fold block in Hdm.
  assert (Hblk : block < nleaves (lenN l) B) by (apply leaf_iff; auto; lia).
  assert (Hs : i + 1 <= N.min ((block + 1) * B) (lenN l)) by nia.
  pose proof (fwd_block_ok lk bv rs B T Hlk Hwf G HB HT m i block Hs) as HF. replace (T - excess_before (bits bv) (i + 1))%Z with d in HF by (unfold T, l; lia). fold l in HF.
  destruct HF as [(j & -> & J1 & J2 & J3 & J4)|[-> Hn]]; cbn [bind].
  { exists (Some j). split; [reflexivity|]. cbn. fold T. fold l in J3, J4. split; [lia|]. split; [lia|]. split; [auto|]. intros k K1 K2. apply J4; lia. }
  fold l in Hn. set (from := N.min ((block + 1) * B) (lenN l)) in *. assert (Hr : (T - excess_before l from <> 0)%Z).
  { assert (i + 1 < from) by (unfold from; nia). specialize (Hn (from - 1) ltac:(lia) ltac:(lia)). replace (from - 1 + 1) with from in Hn by lia. lia. }
  destruct (mmt_fwd_search_ok l B m T HB HL Hm HT block Hblk Hr) as [(b & Eb & B1 & B2 & B3 & B4 & B5)|[Eb Hn2]]; fold from in Eb; fold l; rewrite Eb; cbn [bind].
  - assert (HbB : 1 <= b * B) by (clear - B1 HB; nia). rewrite sub_ok by exact HbB. cbn [bind].
    assert (Hs2 : b * B - 1 + 1 <= N.min ((b + 1) * B) (lenN (bits bv))) by (fold l; apply N.min_glb; lia).
    pose proof (fwd_block_ok lk bv rs B T Hlk Hwf G HB HT m (b * B - 1) b Hs2) as HF. replace (b * B - 1 + 1) with (b * B) in HF by lia. fold l in HF.
    destruct HF as [(j & -> & J1 & J2 & J3 & J4)|[_ HF]]; cbn [bind]; try fold l in J3; try fold l in J4; try fold l in HF; try fold l in Hn.
    + exists (Some j). split; [reflexivity|]. cbn. fold T. assert (Hfb : (block + 1) * B <= b * B) by (apply N.mul_le_mono_r; lia). assert (Hfl : from <= (block + 1) * B) by (unfold from; lia). split; [lia|]. split; [lia|]. split; [auto|]. intros k K1 K2.
      destruct (N.ltb_spec k from); [apply Hn; lia|]. destruct (N.ltb_spec k (b * B)); [apply B4; lia|apply J4; lia].
    + exfalso. destruct B5 as (j & K1 & K2 & K3). specialize (HF (j - 1) ltac:(clear - K1; lia) ltac:(clear - K1 K2 HbB; lia)). replace (j - 1 + 1) with j in HF by (clear - K1 HbB; lia). auto.
  - exists None. split; [reflexivity|]. cbn. fold T. intros k K1 K2. destruct (N.ltb_spec k from); [apply Hn; lia|apply Hn2; lia].
Qed.

Lemma bp_bwd_search_ok lk B bv t i d : lookup_ok lk -> bp_good B bv t -> B mod lk_size lk = 0 \/ lk_size lk mod B = 0 ->
  (Z.abs d + Z.of_N (blen bv) <= 9223372036854775807)%Z ->
  exists o, bp_bwd_search lk B t i d = Ok o /\ (if i <? blen bv then bwd_result (bits bv) i d o else o = None).
Proof.
  intros Hlk [Hwf HB G Hm] Hal Hd. destruct t as [rs m]. cbn [bp_vec bp_mmt] in *.
  unfold bp_bwd_search. cbn [bp_vec bp_mmt]. rewrite (good_len _ _ G). destruct (N.leb_spec (blen bv) i) as [Hi|Hi].
  { exists None. split; [reflexivity|]. destruct (N.ltb_spec i (blen bv)); [lia|reflexivity]. }
  destruct (N.ltb_spec i (blen bv)) as [_|]; [|lia]. destruct (N.eqb_spec i 0) as [->|Hi0]; [exists None; split; [reflexivity|cbn; intros; lia]|].
  assert (HL : 0 < lenN (bits bv)) by (rewrite lenN_bits; lia). specialize (Hm ltac:(lia)). rewrite <- (lenN_bits bv) in Hi, Hd. set (l := bits bv) in *.
  set (T := (excess_before l i + d)%Z). assert (HT : forall p, (Z.abs (T - excess_before l p) <= 9223372036854775807)%Z).
  { intros p. pose proof (ex_len l i p). unfold T. lia. }
  set (block := (i - 1) / B). pose proof (N.div_mod' (i - 1) B) as Hdm. pose proof (N.mod_lt (i - 1) B ltac:(lia)) as Hml. fold block in Hdm.
  assert (Hblk : block < nleaves (lenN l) B) by (apply leaf_iff; auto; lia).
  pose proof (bwd_block_ok lk bv rs B T Hlk Hwf G HB HT Hal m i block ltac:(lia) ltac:(lia) ltac:(fold l; lia)) as HF.
  replace (T - excess_before (bits bv) i)%Z with d in HF by (unfold T, l; lia).
  destruct HF as [(j & -> & J1 & J2 & J3 & J4)|[-> Hn]]; cbn [bind]; try fold l in J3; try fold l in J4; try fold l in HF; try fold l in Hn.
  { exists (Some j). split; [reflexivity|]. cbn. fold T. auto. }
  assert (Hr : (T - excess_before l (block * B) <> 0)%Z) by (specialize (Hn (block * B) ltac:(lia) ltac:(lia)); lia).
  destruct (mmt_bwd_search_ok l B m T HB HL Hm HT block Hblk Hr) as [(b & Eb & B1 & B3 & B4 & B5)|[Eb Hn2]]; fold l; rewrite Eb; cbn [bind].
  - assert (HbL : (b + 1) * B <= block * B) by (apply N.mul_le_mono_r; lia). pose proof (bwd_block_ok lk bv rs B T Hlk Hwf G HB HT Hal m ((b + 1) * B) b ltac:(lia) ltac:(lia) ltac:(fold l; lia)) as HF. fold l in HF.
    destruct HF as [(j & -> & J1 & J2 & J3 & J4)|[_ HF]]; cbn [bind]; try fold l in J3; try fold l in J4; try fold l in HF; try fold l in Hn.
    + exists (Some j). split; [reflexivity|]. cbn. fold T. split; [lia|]. split; [auto|]. intros k K1 K2.
      destruct (N.leb_spec (block * B) k); [apply Hn; lia|]. destruct (N.leb_spec ((b + 1) * B) k); [apply B4; lia|apply J4; lia].
    + exfalso. destruct B5 as (j & K1 & K2 & K3). apply (HF j); auto.
  - exists None. split; [reflexivity|]. cbn. fold T. intros k K1. destruct (N.leb_spec (block * B) k); [apply Hn; lia|apply Hn2; lia].
Qed.
