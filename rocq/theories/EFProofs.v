(** * Proofs about the Elias-Fano model: construction and the meaning of the two parts. *)
From Verif Require Import Base Spec BaseFacts WordFacts BitVecModel BitVecProofs BitVecProofs2
  RsVecModel RsVecProofs RsVecSelect RsEqProofs EFModel.

(** ** Loops over [enumerate] *)
Lemma range_succ_r a b : a <= b -> range a (b + 1) = range a b ++ [b].
Proof. intros. rewrite range_snoc by lia. now rewrite N.add_sub. Qed.
Lemma combine_app {A C} (l1 l2 : list A) (m1 m2 : list C) : length l1 = length m1 ->
  combine (l1 ++ l2) (m1 ++ m2) = combine l1 m1 ++ combine l2 m2.
Proof. revert m1. induction l1 as [|a l1 IH]; intros [|c m1] H; try discriminate; cbn; auto. f_equal. apply IH. now injection H. Qed.
Lemma getN_cons_succ {A} (a : A) l i : getN (a :: l) (i + 1) = getN l i.
Proof. rewrite !getN_nth_error. now replace (N.to_nat (i + 1)) with (S (N.to_nat i)) by lia. Qed.
Lemma combine_range {A} (d : A) (l : list A) : combine (range 0 (lenN l)) l = map (fun i => (i, nthN d l i)) (range 0 (lenN l)).
Proof.
  induction l as [|x l IH] using rev_ind; [reflexivity|].
  rewrite lenN_app. change (lenN [x]) with 1. rewrite range_succ_r by lia. rewrite map_app.
  assert (E : length (range 0 (lenN l)) = length l).
  { pose proof (lenN_range 0 (lenN l)) as H. unfold lenN in H at 1. unfold lenN in *. lia. }
  rewrite combine_app by exact E. rewrite IH. f_equal.
  - apply map_ext_in. intros i Hi. apply In_range in Hi. rewrite nthN_app. destruct (N.ltb_spec i (lenN l)); [auto|lia].
  - cbn [combine map]. rewrite nthN_app, N.sub_diag. destruct (N.ltb_spec (lenN l) (lenN l)); [lia|]. reflexivity.
Qed.
Lemma forM_map {A B S} (g : A -> B) l (s : S) f : forM (map g l) s f = forM l s (fun s x => f s (g x)).
Proof. revert s. induction l as [|x l IH]; intros s; cbn; [auto|]. destruct (f s (g x)); cbn; auto. Qed.
Lemma forM_enum_inv {A S} (d : A) (P : N -> S -> Prop) (l : list A) s f :
  P 0 s ->
  (forall i s, i < lenN l -> P i s -> exists s', f s (i, nthN d l i) = Ok s' /\ P (i + 1) s') ->
  exists s', forM (combine (range 0 (lenN l)) l) s f = Ok s' /\ P (lenN l) s'.
Proof.
  intros H0 Hs. rewrite (combine_range d), forM_map. apply forM_range_inv; auto. lia.
Qed.

(** ** Counting lemmas *)
Lemma cnt_split3 (f g h : N -> bool) n : (forall k, k < n -> (if f k then 1 else 0) = (if g k then 1 else 0) + (if h k then 1 else 0)) ->
  cnt f n = cnt g n + cnt h n.
Proof.
  induction n as [|n IH] using N_ind1; intros H; [reflexivity|]. rewrite !cnt_succ, IH by (intros; apply H; lia).
  specialize (H n). lia.
Qed.
Lemma cnt_single f n k : k < n -> (forall i, i < n -> f i = (i =? k)) -> cnt f n = 1.
Proof.
  intros Hk H. replace n with ((k + 1) + (n - (k + 1))) by lia. rewrite cnt_add, cnt_succ.
  rewrite (cnt_ext f (fun _ => false) k), cnt_false.
  2:{ intros i Hi. rewrite H by lia. destruct (N.eqb_spec i k); [lia|auto]. }
  rewrite (cnt_ext _ (fun _ => false)), cnt_false.
  2:{ intros i Hi. rewrite H by lia. destruct (N.eqb_spec (k + 1 + i) k); [lia|auto]. }
  rewrite H by auto. now rewrite N.eqb_refl.
Qed.
Lemma cnt_below k n : k <= n -> cnt (fun j => j <? k) n = k.
Proof.
  intros H. replace n with (k + (n - k)) by lia. rewrite cnt_add.
  rewrite (cnt_ext (fun j => j <? k) (fun _ => true) k), cnt_true by (intros; lia).
  rewrite (cnt_ext _ (fun _ => false)), cnt_false by (intros; lia). lia.
Qed.
(** A downward closed predicate is a threshold. *)
Lemma cnt_threshold f n : (forall i j, i <= j -> j < n -> f j = true -> f i = true) ->
  forall k, k < n -> f k = (k <? cnt f n).
Proof.
  induction n as [|n IH] using N_ind1; intros H k Hk; [lia|]. rewrite cnt_succ.
  assert (H' : forall i j, i <= j -> j < n -> f j = true -> f i = true) by (intros i j ? ?; apply H; lia).
  pose proof (cnt_le f n). destruct (f n) eqn:En.
  - assert (Hall : forall i, i < n + 1 -> f i = true) by (intros; apply (H i n); auto; lia).
    rewrite (cnt_ext f (fun _ => true) n), cnt_true by (intros; apply Hall; lia). rewrite Hall by auto. lia.
  - destruct (N.eq_dec k n) as [->|E].
    + rewrite En. lia.
    + rewrite N.add_0_r. apply IH; auto. lia.
Qed.
(** Counting the image of a strictly increasing function. *)
Lemma cnt_image (pos : N -> N) (one : N -> bool) n m :
  (forall i j, i < j -> j < n -> pos i < pos j) ->
  (forall p, p < m -> one p = true <-> exists k, k < n /\ pos k = p) ->
  forall p, p <= m -> cnt one p = cnt (fun k => pos k <? p) n.
Proof.
  intros Hinc Hone p. induction p as [|p IH] using N_ind1; intros Hp.
  - rewrite (cnt_ext (fun k => pos k <? 0) (fun _ => false)), cnt_false by (intros; lia). reflexivity.
  - rewrite cnt_succ, IH by lia.
    rewrite (cnt_split3 (fun k => pos k <? p + 1) (fun k => pos k <? p) (fun k => pos k =? p) n).
    2:{ intros k _. destruct (N.ltb_spec (pos k) (p + 1)), (N.ltb_spec (pos k) p), (N.eqb_spec (pos k) p); lia. }
    f_equal. destruct (one p) eqn:E.
    + apply Hone in E; [|lia]. destruct E as (k & Hk & Ek). symmetry. apply (cnt_single _ _ k); auto.
      intros i Hi. destruct (N.eqb_spec (pos i) p), (N.eqb_spec i k); auto; subst; [|lia].
      destruct (N.lt_trichotomy i k) as [L|[L|L]]; [|lia|]; [pose proof (Hinc i k L Hk)|pose proof (Hinc k i L Hi)]; lia.
    + rewrite (cnt_ext (fun k => pos k =? p) (fun _ => false)), cnt_false; auto.
      intros k Hk. destruct (N.eqb_spec (pos k) p); auto. assert (one p = true) by (apply Hone; [lia|eauto]). congruence.
Qed.

(** ** Splitting words *)
Lemma lor_shift u w l : l < 2 ^ w -> N.lor (N.shiftl u w) l = u * 2 ^ w + l.
Proof.
  intros H. rewrite N.shiftl_mul_pow2.
  assert (E : N.land (u * 2 ^ w) l = 0).
  { apply N.bits_inj. intros i. rewrite N.land_spec, N.bits_0. destruct (N.lt_ge_cases i w) as [L|L].
    - rewrite N.mul_pow2_bits_low by auto. reflexivity.
    - rewrite andb_comm. destruct (N.eq_dec l 0) as [->|]; [now rewrite N.bits_0|].
      rewrite N.bits_above_log2; auto. apply N.log2_lt_pow2 in H; lia. }
  rewrite <- N.lxor_lor by exact E. symmetry. now apply N.add_nocarry_lxor.
Qed.
Lemma land_lowmask x w : w < 64 -> N.land x (lowmask w) = x mod 2 ^ w.
Proof. intros. rewrite lowmask_ones by auto. apply N.land_ones. Qed.
Lemma shl64_chk_exact u w : w < 64 -> u * 2 ^ w < U64 -> shl64_chk u w = Ok (u * 2 ^ w).
Proof.
  intros H1 H2. unfold shl64_chk. destruct (N.ltb_spec w 64); [|lia]. unfold shl64.
  rewrite N.shiftl_mul_pow2, N.mod_small by auto. reflexivity.
Qed.

(** ** The encoding of a sorted list *)
Definition nondecreasing (l : list N) : Prop :=
  forall i j x y, i <= j -> getN l i = Some x -> getN l j = Some y -> x <= y.

Lemma nondecreasing_nth l : nondecreasing l -> forall i j, i <= j -> j < lenN l -> nthN 0 l i <= nthN 0 l j.
Proof. intros H i j Hij Hj. apply (H i j); auto; apply (getN_ok 0); lia. Qed.
Lemma nondecreasing_windows l : nondecreasing l -> windows_sorted l = true.
Proof.
  induction l as [|a [|b l] IH]; intros H; auto. cbn [windows_sorted]. apply andb_true_iff. split.
  - apply N.leb_le. apply (H 0 1 a b); [lia|reflexivity|].
    rewrite (getN_ok 0) by (rewrite !lenN_cons; lia). reflexivity.
  - apply IH. intros i j x y Hij Hx Hy. apply (H (i + 1) (j + 1)); [lia| |]; rewrite getN_cons_succ; auto.
Qed.

Section Enc.
Variables (data : list N) (w : N).
Hypothesis Hsorted : nondecreasing data.
Hypothesis Hwords : Forall (fun x => x < U64) data.
Hypothesis Hne : 0 < lenN data.
Hypothesis Hw : w < 64.
Local Notation n := (lenN data).
Definition eW (k : N) : N := nthN 0 data k - nthN 0 data 0.
Definition eU (k : N) : N := eW k / 2 ^ w.
Definition eL (k : N) : N := eW k mod 2 ^ w.
Definition ePos (k : N) : N := eU k + k + 1.
(** Number of elements with high part below [j]. *)
Definition eC (j : N) : N := cnt (fun k => eU k <? j) n.
Local Notation B := (eU (n - 1)).
Local Notation m := (2 + n + B).

Lemma pow_pos : 0 < 2 ^ w.
Proof using Hsorted Hwords Hne Hw. apply N.neq_0_lt_0. now apply N.pow_nonzero. Qed.
Lemma eW_mono i j : i <= j -> j < n -> eW i <= eW j.
Proof using Hsorted Hwords Hne Hw. intros. unfold eW. pose proof (nondecreasing_nth data Hsorted i j). lia. Qed.
Lemma eW_val k : k < n -> eW k + nthN 0 data 0 = nthN 0 data k.
Proof using Hsorted Hwords Hne Hw. intros. unfold eW. pose proof (nondecreasing_nth data Hsorted 0 k). lia. Qed.
Lemma data_lt k : k < n -> nthN 0 data k < U64.
Proof using Hsorted Hwords Hne Hw. intros. rewrite Forall_forall in Hwords. apply Hwords. apply nth_In. unfold lenN in *. lia. Qed.
Lemma eW_lt k : k < n -> eW k < U64.
Proof using Hsorted Hwords Hne Hw. intros H. pose proof (data_lt k H). unfold eW. lia. Qed.
Lemma eW_split k : eW k = eU k * 2 ^ w + eL k.
Proof using Hsorted Hwords Hne Hw. unfold eU, eL. pose proof pow_pos. rewrite (N.div_mod (eW k) (2 ^ w)) at 1 by lia. lia. Qed.
Lemma eL_lt k : eL k < 2 ^ w.
Proof using Hsorted Hwords Hne Hw. apply N.mod_lt. pose proof pow_pos. lia. Qed.
Lemma eU_mono i j : i <= j -> j < n -> eU i <= eU j.
Proof using Hsorted Hwords Hne Hw. intros. apply N.div_le_mono; [pose proof pow_pos; lia|]. now apply eW_mono. Qed.
Lemma eU_0 : eU 0 = 0.
Proof using Hsorted Hwords Hne Hw. unfold eU, eW. rewrite N.sub_diag. apply N.div_0_l. pose proof pow_pos. lia. Qed.
Lemma ePos_mono i j : i < j -> j < n -> ePos i < ePos j.
Proof using Hsorted Hwords Hne Hw. intros. unfold ePos. pose proof (eU_mono i j). lia. Qed.
Lemma eC_spec j k : k < n -> (eU k <? j) = (k <? eC j).
Proof using Hsorted Hwords Hne Hw.
  intros Hk. unfold eC. apply (cnt_threshold (fun k => eU k <? j) n); auto.
  intros a b Hab Hb Hf. pose proof (eU_mono a b Hab Hb). lia.
Qed.
Lemma eC_lt j k : k < n -> eU k < j <-> k < eC j.
Proof using Hsorted Hwords Hne Hw. intros Hk. pose proof (eC_spec j k Hk). lia. Qed.
Lemma eC_le j : eC j <= n.
Proof using Hsorted Hwords Hne Hw. apply cnt_le. Qed.
Lemma eC_mono i j : i <= j -> eC i <= eC j.
Proof using Hsorted Hwords Hne Hw.
  intros H. destruct (N.le_gt_cases (eC i) (eC j)) as [|L]; auto. exfalso.
  pose proof (eC_le i). assert (Hk : eC j < n) by lia.
  assert (eU (eC j) < i) by (apply eC_lt; auto). assert (~ eU (eC j) < j) by (rewrite eC_lt by auto; lia). lia.
Qed.
Lemma eC_all j : B < j -> eC j = n.
Proof using Hsorted Hwords Hne Hw.
  intros H. pose proof (eC_le j). destruct (N.eq_dec (eC j) n) as [|Hn]; auto. exfalso.
  assert (n - 1 < eC j); [|lia]. apply eC_lt; lia.
Qed.

(** What the construction guarantees. *)
Record ef_good (e : ef) : Prop := {
  eg_w : ef_w e = w;
  eg_n : ef_n e = n;
  eg_zero : ef_zero e = nthN 0 data 0;
  eg_max : ef_max e = nthN 0 data (n - 1);
  eg_low : forall k, k < n -> ef_low e k = Ok (eL k);
  eg_low_over : forall k, n <= k -> ef_low e k = if (k + 1) * w <=? 64 * lenN (bdata (ef_lower e)) then Ok 0 else Panic;
  eg_low_len : lenN (bdata (ef_lower e)) = if w =? 0 then n else (n * w + 63) / 64;
  eg_up : exists bv, wf bv /\ rs_good bv (ef_upper e) /\ blen bv = m /\
      forall p, p < m -> bit_at (bdata bv) p = true <-> exists k, k < n /\ ePos k = p
}.

Lemma ef_push_ok i up low :
  i < n ->
  wf up -> blen up = m -> (forall p, p < m -> bit_at (bdata up) p = true <-> exists k, k < i /\ ePos k = p) ->
  (if w =? 0 then blen low = 0 /\ lenN (bdata low) = i /\ Forall (fun x => x = 0) (bdata low)
   else wf low /\ zero_tail low /\ bits low = concat (map (fun x => lowbits x w) (map eL (range 0 i)))) ->
  exists up' low', ef_push w (nthN 0 data 0) (up, low) (i, nthN 0 data i) = Ok (up', low') /\
  wf up' /\ blen up' = m /\ (forall p, p < m -> bit_at (bdata up') p = true <-> exists k, k < i + 1 /\ ePos k = p) /\
  (if w =? 0 then blen low' = 0 /\ lenN (bdata low') = i + 1 /\ Forall (fun x => x = 0) (bdata low')
   else wf low' /\ zero_tail low' /\ bits low' = concat (map (fun x => lowbits x w) (map eL (range 0 (i + 1))))).
Proof using Hsorted Hwords Hne Hw.
  intros Hi Hup Elen Hbits Hlow. unfold ef_push.
  pose proof (nondecreasing_nth data Hsorted 0 i ltac:(lia) Hi). rewrite sub_ok by auto. cbn [bind]. fold (eW i).
  rewrite N.shiftr_div_pow2, land_lowmask by auto. fold (eU i). fold (eL i). fold (ePos i).
  pose proof (eU_mono i (n - 1) ltac:(lia) ltac:(lia)).
  assert (Hpos : ePos i < blen up) by (rewrite Elen; unfold ePos; lia).
  destruct (bv_flip_ok up (ePos i) Hup Hpos) as (up' & E & Hup' & Hb').
  unfold bv_flip_bit in E. rewrite assert_true in E by lia. cbn [bind] in E. rewrite E. cbn [bind].
  assert (Elen' : blen up' = m).
  { rewrite <- lenN_bits, Hb', lenN_set_nth, lenN_bits. auto. }
  assert (Hbits' : forall p, p < m -> bit_at (bdata up') p = true <-> exists k, k < i + 1 /\ ePos k = p).
  { intros p Hp. rewrite <- (nthN_bits false up' p) by lia. rewrite Hb', nthN_set_nth by (rewrite lenN_bits; lia).
    assert (Ef : bit_at (bdata up) (ePos i) = false).
    { destruct (bit_at (bdata up) (ePos i)) eqn:Eb; auto. apply Hbits in Eb; [|lia]. destruct Eb as (k & Hk & Ek).
      pose proof (ePos_mono k i Hk Hi). lia. }
    destruct (N.eqb_spec p (ePos i)) as [->|Ep].
    - rewrite nthN_bits by auto. rewrite Ef. split; [|auto]. intros _. exists i. split; [lia|auto].
    - rewrite nthN_bits by lia. rewrite Hbits by auto. split; intros (k & Hk & Ek); exists k; split; auto; [lia|].
      destruct (N.eq_dec k i); [subst; congruence|lia]. }
  pose proof (eL_lt i) as HL.
  destruct (N.eqb_spec w 0) as [E0|E0].
  - destruct Hlow as (L0 & Ld & LF). unfold bv_append_bits_unchecked. rewrite L0. cbn [bind].
    change (0 mod 64 =? 0) with true. cbn [bind]. exists up', (mkbv (bdata low ++ [eL i]) (0 + w)). split; [reflexivity|]. split; [auto|]. split; [auto|]. split; [auto|]. cbn [bdata blen].
    split; [lia|]. split; [rewrite lenN_app, Ld; reflexivity|].
    apply Forall_app. split; auto. constructor; auto. rewrite E0 in HL. change (2 ^ 0) with 1 in HL. lia.
  - destruct Hlow as (Hwf & Hz & Hb).
    assert (HL64 : eL i < U64).
    { pose proof (N.pow_lt_mono_r 2 w 64). rewrite U64_pow. lia. }
    destruct (bv_append_bits_unchecked_ok low (eL i) w Hwf (zero_tail_clean _ Hz) HL64) as (low' & El & Hwf' & Hbl); try lia.
    rewrite El. cbn [bind]. exists up', low'. split; [reflexivity|]. do 3 (split; [auto|]). split; [auto|]. split.
    + apply (append_unchecked_zero_tail low (eL i) w low'); auto; lia.
    + rewrite Hbl, Hb. rewrite range_succ_r by lia. rewrite !map_app, concat_app. cbn [map concat]. now rewrite app_nil_r.
Qed.

Lemma ef_from_slice_ok : exists e, ef_from_slice w data = Ok e /\ ef_good e.
Proof using Hsorted Hwords Hne Hw.
  unfold ef_from_slice. destruct (N.eqb_spec n 0) as [Hn|Hn]; [lia|].
  rewrite assert_true by now apply nondecreasing_windows. cbn [bind].
  rewrite !(idx_ok 0) by lia. cbn [bind].
  pose proof (nondecreasing_nth data Hsorted 0 (n - 1) ltac:(lia) ltac:(lia)). rewrite sub_ok by auto. cbn [bind].
  fold (eW (n - 1)). rewrite assert_true by lia. cbn [bind]. rewrite N.shiftr_div_pow2. fold B.
  destruct (bv_from_zeros_ok m) as [Hz1 Hz2].
  assert (Hzl : blen (bv_from_zeros m) = m) by reflexivity.
  match goal with |- context [forM _ ?s _] => set (s0 := s) end.
  destruct (forM_enum_inv 0 (fun i s =>
    wf (fst s) /\ blen (fst s) = m /\ (forall p, p < m -> bit_at (bdata (fst s)) p = true <-> exists k, k < i /\ ePos k = p) /\
    (if w =? 0 then blen (snd s) = 0 /\ lenN (bdata (snd s)) = i /\ Forall (fun x => x = 0) (bdata (snd s))
     else wf (snd s) /\ zero_tail (snd s) /\ bits (snd s) = concat (map (fun x => lowbits x w) (map eL (range 0 i)))))
    data s0 (ef_push w (nthN 0 data 0))) as ([up low] & E & H1 & H2 & H3 & H4).
  - unfold s0. cbn [fst snd]. split; auto. split; auto. split.
    + intros p Hp. rewrite <- (nthN_bits false (bv_from_zeros m) p) by (rewrite Hzl; lia). rewrite Hz2.
      rewrite nthN_replicate by auto. split; [discriminate|]. intros (k & Hk & _). lia.
    + destruct (w =? 0); [repeat split; auto; constructor|]. split; [apply bv_new_wf|]. split; [apply bv_new_zero_tail|]. reflexivity.
  - intros i [up low] Hi (H1 & H2 & H3 & H4). cbn [fst snd] in *.
    destruct (ef_push_ok i up low Hi H1 H2 H3 H4) as (up' & low' & E & H5). exists (up', low'). auto.
  - rewrite E. cbn [bind fst snd] in *. destruct (rs_from_bit_vec_ok up H1) as (u & Eu & G). rewrite Eu. cbn [bind].
    assert (HLL : lenN (bdata low) = if w =? 0 then n else (n * w + 63) / 64).
    { destruct (N.eqb_spec w 0) as [E0|E0]; [apply H4|]. destruct H4 as (Hwf & _ & Hb).
      destruct Hwf as [El _]. rewrite El, <- lenN_bits, Hb, lenN_concat_lowbits, lenN_map, lenN_range. f_equal. lia. }
    eexists. split; [reflexivity|]. split; cbn [ef_w ef_n ef_zero ef_max ef_lower ef_upper]; auto; [| |exists up; auto].
    2:{ intros k Hk. unfold ef_low, bv_get_bits_unchecked. cbn [ef_w ef_lower]. destruct (N.eqb_spec w 0) as [E0|E0].
      { destruct H4 as (L0 & Ld & LF). rewrite E0, !N.mul_0_r.
        assert (exists x r, bdata low = x :: r) as (x & r & Ex).
        { destruct (bdata low) as [|x r]; [exfalso; change (lenN (@nil N)) with 0 in Ld; lia|eauto]. }
        rewrite Ex in LF. inversion LF as [|? ? Hx _]. subst x. unfold limbs_get_bits_unchecked. rewrite Ex. reflexivity. }
      destruct H4 as (Hwf & Hz & Hb).
      assert (Elen : blen low = w * n).
      { rewrite <- lenN_bits, Hb, lenN_concat_lowbits, lenN_map, lenN_range. lia. }
      replace ((k + 1) * w) with (k * w + w) by lia. assert (Hkw : blen low <= k * w) by nia. set (q := k * w) in *. clearbody q.
      destruct (N.leb_spec (q + w) (64 * lenN (bdata low))) as [L|L].
      - rewrite limbs_get_bits_ok by (try apply Hwf; lia || dlia). f_equal. apply value_bools. intros i. rewrite Hz by lia. now rewrite N.bits_0, andb_false_r.
      - unfold limbs_get_bits_unchecked. rewrite assert_true by lia. cbn [bind].
        destruct (N.le_gt_cases (lenN (bdata low)) (q / 64)); [now rewrite idx_panic|]. rewrite (idx_ok 0) by auto. cbn [bind].
        destruct (N.leb_spec (q mod 64 + w) 64); [exfalso; dlia|]. rewrite idx_panic by dlia. reflexivity. }
    intros k Hk. unfold ef_low. cbn. destruct (N.eqb_spec w 0) as [E0|E0].
    + destruct H4 as (L0 & Ld & LF). rewrite E0, N.mul_0_r.
      assert (EL : eL k = 0) by (pose proof (eL_lt k) as X; rewrite E0 in X; change (2 ^ 0) with 1 in X; lia). rewrite EL.
      assert (exists x r, bdata low = x :: r) as (x & r & Ex).
      { destruct (bdata low) as [|x r]; [exfalso; change (lenN (@nil N)) with 0 in Ld; lia|eauto]. }
      rewrite Ex in LF. inversion LF as [|? ? Hx _]. subst x.
      unfold bv_get_bits_unchecked, limbs_get_bits_unchecked. rewrite Ex. reflexivity.
    + destruct H4 as (Hwf & Hz & Hb).
      assert (Elen : blen low = w * n).
      { rewrite <- lenN_bits, Hb, lenN_concat_lowbits, lenN_map, lenN_range. lia. }
      rewrite bv_get_bits_unchecked_ok by (auto; try lia; nia). f_equal. rewrite Hb.
      rewrite slice_concat_lowbits by (rewrite lenN_map, lenN_range; lia).
      rewrite value_lowbits. rewrite (nthN_map eL 0 0), nthN_range by (rewrite ?lenN_range; lia).
      now rewrite N.mod_small by apply eL_lt.
Qed.
End Enc.
