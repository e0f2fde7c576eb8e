(** * C98 and C99: parallel bit deposit. *)
From Verif Require Import Base Spec BaseFacts WordFacts RsVecModel PdepProofs PdepModel.

(** What the documentation (util/pdep.rs 31-35) promises: the lowest bits of [value] go, in order, to
    the positions of the set bits of [mask], and all other bits are zero. *)
Definition deposited (w value mask r : N) : Prop :=
  forall i, N.testbit r i =
    (if (i <? w) && N.testbit mask i then N.testbit value (rank_spec true (lowbits mask w) i) else false).

Lemma rank_lowbits mask w i : i <= w -> rank_spec true (lowbits mask w) i = cnt (N.testbit mask) i.
Proof.
  intros H. unfold lowbits. rewrite (rank_spec_cnt true false); [|rewrite lenN_map, lenN_range; lia].
  apply cnt_ext. intros j Hj. rewrite (nthN_map _ 0) by (rewrite lenN_range; lia).
  rewrite nthN_range by lia. now rewrite N.add_0_l, eqb_true_r || (destruct (N.testbit mask _); auto).
Qed.

Lemma low_bit_w w m i : m <> 0 -> m < 2 ^ w ->
  N.testbit (N.land m ((2 ^ w - m) mod 2 ^ w)) i = (i =? ctz64 m).
Proof.
  intros Hm Hu. destruct (ctz64_spec m Hm) as [H1 H2].
  assert (Hlow : forall j, w <= j -> N.testbit m j = false).
  { intros j Hj. apply N.bits_above_log2. pose proof (proj1 (N.log2_lt_pow2 m w ltac:(lia)) Hu). lia. }
  assert (E : (2 ^ w - m) mod 2 ^ w = N.lnot (m - 1) w).
  { rewrite N.mod_small by lia. destruct (N.eq_dec (m - 1) 0) as [E|].
    - rewrite E. replace m with 1 by lia. rewrite N.lnot_0_l, N.ones_equiv. lia.
    - rewrite N.lnot_sub_low by (apply N.log2_lt_pow2; lia). rewrite N.ones_equiv. lia. }
  rewrite N.land_spec, E. destruct (N.lt_ge_cases i w) as [L|L].
  - rewrite N.lnot_spec_low, testbit_pred by auto.
    destruct (N.ltb_spec i (ctz64 m)) as [L1|L1].
    + rewrite H2 by auto. cbn. symmetry. apply N.eqb_neq. lia.
    + destruct (N.eqb_spec i (ctz64 m)) as [->|]; [now rewrite H1|]. now destruct (N.testbit m i).
  - rewrite Hlow by auto. cbn. symmetry. apply N.eqb_neq. intros ->.
    rewrite Hlow in H1 by auto. discriminate.
Qed.

Definition bb_at (w k : N) : N := if k <? w then 2 ^ k else 0.
Lemma bb_at_succ w k : (bb_at w k + bb_at w k) mod 2 ^ w = bb_at w (k + 1).
Proof.
  unfold bb_at. assert (2 ^ w <> 0) by (apply N.pow_nonzero; lia).
  destruct (N.ltb_spec k w), (N.ltb_spec (k + 1) w); try lia.
  - pose proof (N.pow_lt_mono_r 2 (k + 1) w ltac:(lia) ltac:(lia)) as H2.
    rewrite N.add_1_r, N.pow_succ_r' in *. rewrite N.mod_small; lia.
  - replace w with (N.succ k) by lia. rewrite N.pow_succ_r'.
    replace (2 ^ k + 2 ^ k) with (2 * 2 ^ k) by lia. apply N.mod_same.
    pose proof (N.pow_nonzero 2 k ltac:(lia)). lia.
Qed.
Lemma bb_at_land w v k : k < w -> negb (N.land v (bb_at w k) =? 0) = N.testbit v k.
Proof.
  intros Hk. unfold bb_at. destruct (N.ltb_spec k w); [|lia].
  assert (E : N.land v (2 ^ k) = if N.testbit v k then 2 ^ k else 0).
  { apply N.bits_inj. intros i. rewrite N.land_spec, testbit_pow2.
    destruct (N.eqb_spec i k) as [->|].
    - destruct (N.testbit v k); [now rewrite testbit_pow2, N.eqb_refl|now rewrite N.bits_0].
    - rewrite Bool.andb_false_r. destruct (N.testbit v k); [|now rewrite N.bits_0].
      rewrite testbit_pow2. symmetry. now apply N.eqb_neq. }
  rewrite E. destruct (N.testbit v k); auto.
  destruct (N.eqb_spec (2 ^ k) 0) as [E1|]; auto. exfalso. revert E1. apply N.pow_nonzero. lia.
Qed.

Lemma ctz64_lt_w w m : m <> 0 -> m < 2 ^ w -> ctz64 m < w.
Proof.
  intros Hm Hu. destruct (ctz64_spec m Hm) as [H1 _]. destruct (N.lt_ge_cases (ctz64 m) w); auto.
  rewrite N.bits_above_log2 in H1; [discriminate|].
  pose proof (proj1 (N.log2_lt_pow2 m w ltac:(lia)) Hu). lia.
Qed.

Lemma land_lt_w w a b : a < 2 ^ w -> N.land a b < 2 ^ w.
Proof.
  intros H. apply testbit_lt. intros i Hi. rewrite N.land_spec.
  destruct (N.eq_dec a 0) as [->|]; [now rewrite N.bits_0|].
  rewrite (N.bits_above_log2 a i); auto. pose proof (proj1 (N.log2_lt_pow2 a w ltac:(lia)) H). lia.
Qed.

Lemma pdepw_loop_ok fuel w value mask k r : mask < 2 ^ w ->
  cnt (N.testbit mask) w < N.of_nat fuel -> k + cnt (N.testbit mask) w <= w ->
  exists r', pdepw_loop fuel w false value mask (bb_at w k) r = Ok r' /\
    forall i, N.testbit r' i =
      (N.testbit r i || (N.testbit mask i && N.testbit value (k + cnt (N.testbit mask) i)))%bool.
Proof.
  revert mask k r. induction fuel as [|fuel IH]; intros mask k r Hm Hf Hk; [lia|].
  cbn [pdepw_loop]. destruct (N.eqb_spec mask 0) as [->|Hn].
  { exists r. split; auto. intros i. now rewrite N.bits_0, Bool.orb_false_r. }
  cbn [andb bind]. pose proof (ctz64_lt_w w mask Hn Hm) as Ht. destruct (ctz64_spec mask Hn) as [H1 H2].
  pose proof (cnt_clear_low mask w Hn Ht) as Hc.
  rewrite bb_at_succ, bb_at_land by lia.
  destruct (IH (N.land mask (mask - 1)) (k + 1)
    (if N.testbit value k then N.lor r (N.land mask ((2 ^ w - mask) mod 2 ^ w)) else r))
    as (r' & E & Hr); [now apply land_lt_w|lia|lia|].
  exists r'. split; [exact E|]. intros i. rewrite Hr, testbit_clear_low by auto.
  assert (E0 : cnt (N.testbit mask) (ctz64 mask) = 0).
  { rewrite (cnt_ext _ (fun _ => false)) by auto. apply cnt_false. }
  assert (E1 : N.testbit (if N.testbit value k then N.lor r (N.land mask ((2 ^ w - mask) mod 2 ^ w)) else r) i
    = (N.testbit r i || (N.testbit value k && (i =? ctz64 mask)))%bool).
  { destruct (N.testbit value k); cbn [andb]; [|now rewrite Bool.orb_false_r].
    now rewrite N.lor_spec, low_bit_w. }
  rewrite E1. destruct (N.eqb_spec i (ctz64 mask)) as [->|Hi].
  - rewrite E0, H1, N.add_0_r. cbn. now rewrite !Bool.andb_true_r, Bool.orb_false_r.
  - rewrite Bool.andb_false_r, Bool.orb_false_r, Bool.andb_true_r. f_equal.
    destruct (N.testbit mask i) eqn:Em; auto. cbn [andb]. f_equal.
    assert (ctz64 mask < i).
    { destruct (N.lt_total (ctz64 mask) i) as [|[<-|L]]; auto; [lia|]. rewrite H2 in Em by auto. discriminate. }
    rewrite (cnt_clear_low mask i) by auto. lia.
Qed.

Lemma testbit_above_w w m i : m < 2 ^ w -> w <= i -> N.testbit m i = false.
Proof.
  intros H Hi. destruct (N.eq_dec m 0) as [->|]; [now rewrite N.bits_0|].
  apply N.bits_above_log2. pose proof (proj1 (N.log2_lt_pow2 m w ltac:(lia)) H). lia.
Qed.

Lemma bb_at_0 w : 0 < w -> bb_at w 0 = 1.
Proof. intros. unfold bb_at. now destruct (N.ltb_spec 0 w); [|lia]. Qed.

(** ** C98 *)
(** The loop returns the documented result, for every unsigned width. *)
Theorem C98_pdep w value mask : 0 < w -> mask < 2 ^ w ->
  exists r, pdepw w false value mask = Ok r /\ r < 2 ^ w /\ deposited w value mask r.
Proof.
  intros Hw Hm. unfold pdepw. rewrite <- (bb_at_0 w) by auto.
  pose proof (cnt_le (N.testbit mask) w) as Hc.
  destruct (pdepw_loop_ok (S (N.to_nat w)) w value mask 0 0 Hm ltac:(lia) ltac:(lia)) as (r & E & Hr).
  exists r. split; auto. split.
  - apply testbit_lt. intros i Hi. rewrite Hr, N.bits_0, (testbit_above_w w mask) by auto. reflexivity.
  - intros i. rewrite Hr, N.bits_0. cbn [orb]. destruct (N.ltb_spec i w) as [L|L]; cbn [andb].
    + rewrite rank_lowbits, N.add_0_l by lia. now destruct (N.testbit mask i).
    + now rewrite (testbit_above_w w mask).
Qed.

(** The documented result is unique. *)
Theorem C98_unique w value mask r r' :
  deposited w value mask r -> deposited w value mask r' -> r = r'.
Proof. intros H H'. apply N.bits_inj. intros i. now rewrite H, H'. Qed.

Lemma pdep_hw_loop_ok todo value mask dest m : (forall i, m <= i -> N.testbit dest i = false) ->
  forall i, N.testbit (pdep_hw_loop todo value mask dest m (cnt (N.testbit mask) m)) i =
    if (m <=? i) && (i <? m + N.of_nat todo) && N.testbit mask i
    then N.testbit value (cnt (N.testbit mask) i) else N.testbit dest i.
Proof.
  revert dest m. induction todo as [|todo IH]; intros dest m Hd i.
  - cbn. destruct (N.leb_spec m i), (N.ltb_spec i (m + 0)); cbn; auto; lia.
  - cbn [pdep_hw_loop]. destruct (N.testbit mask m) eqn:Em.
    + replace (cnt (N.testbit mask) m + 1) with (cnt (N.testbit mask) (m + 1)) by (now rewrite cnt_succ, Em).
      assert (Hd' : forall j, N.testbit (if N.testbit value (cnt (N.testbit mask) m)
        then N.setbit dest m else N.clearbit dest m) j =
        if j =? m then N.testbit value (cnt (N.testbit mask) m) else N.testbit dest j).
      { intros j. destruct (N.testbit value (cnt (N.testbit mask) m)).
        - rewrite N.setbit_eqb, N.eqb_sym. now destruct (N.eqb_spec j m).
        - rewrite N.clearbit_eqb, N.eqb_sym. destruct (N.eqb_spec j m); cbn; [apply Bool.andb_false_r|apply Bool.andb_true_r]. }
      rewrite IH.
      2:{ intros j Hj. rewrite Hd'. destruct (N.eqb_spec j m); [lia|]. apply Hd. lia. }
      rewrite Hd'. destruct (N.eqb_spec i m) as [->|Hi].
      * rewrite Em. destruct (N.leb_spec (m + 1) m), (N.leb_spec m m), (N.ltb_spec m (m + N.of_nat (S todo)));
          try lia. reflexivity.
      * destruct (N.leb_spec (m + 1) i), (N.leb_spec m i), (N.ltb_spec i (m + N.of_nat (S todo))),
          (N.ltb_spec i (m + 1 + N.of_nat todo)); try lia; reflexivity.
    + replace (cnt (N.testbit mask) m) with (cnt (N.testbit mask) (m + 1)) by (rewrite cnt_succ, Em; lia).
      rewrite IH by (intros; apply Hd; lia).
      destruct (N.eq_dec i m) as [->|Hi].
      * rewrite Em, !Bool.andb_false_r. reflexivity.
      * destruct (N.leb_spec (m + 1) i), (N.leb_spec m i), (N.ltb_spec i (m + N.of_nat (S todo))),
          (N.ltb_spec i (m + 1 + N.of_nat todo)); try lia; reflexivity.
Qed.

(** The instruction computes the same, so the choice of the target features does not matter. *)
Theorem C98_hardware w value mask : 0 < w -> mask < 2 ^ w ->
  deposited w value mask (pdep_hw w value mask) /\
  pdepw w false value mask = Ok (pdep_hw w value mask).
Proof.
  intros Hw Hm. assert (D : deposited w value mask (pdep_hw w value mask)).
  { intros i. unfold pdep_hw. rewrite <- (cnt_0 (N.testbit mask)) at 3.
    rewrite pdep_hw_loop_ok by (intros; apply N.bits_0). rewrite N.bits_0, N2Nat.id, N.add_0_l.
    destruct (N.leb_spec 0 i), (N.ltb_spec i w) as [L|L]; try lia; cbn [andb]; auto.
    destruct (N.testbit mask i); auto. now rewrite rank_lowbits by lia. }
  split; auto. destruct (C98_pdep w value mask Hw Hm) as (r & E & _ & Hr). rewrite E.
  f_equal. now apply (C98_unique w value mask).
Qed.

Lemma pdepw_loop_64 fuel value mask bb r :
  pdepw_loop fuel 64 false value mask bb r = pdep_loop fuel value mask bb r.
Proof.
  revert mask bb r. induction fuel as [|fuel IH]; intros mask bb r; [reflexivity|].
  cbn [pdepw_loop pdep_loop]. destruct (mask =? 0); auto. cbn [andb bind]. apply IH.
Qed.

(** The function that [select] calls is the 64-bit case, so [select] may use either variant. *)
Theorem C98_select value mask : mask < 2 ^ 64 -> pdep value mask = Ok (pdep_hw 64 value mask).
Proof.
  intros H. rewrite <- (proj2 (C98_hardware 64 value mask ltac:(lia) H)). symmetry. apply pdepw_loop_64.
Qed.

Example C98_ex :
  pdepw 8 false 5 148 = Ok 132 /\ pdep_hw 8 5 148 = 132 /\
  pdep_hw 64 2 (2 ^ 63 + 2 ^ 5) = 2 ^ 63 /\ pdep 2 (2 ^ 63 + 2 ^ 5) = Ok (2 ^ 63).
Proof. vm_compute. auto. Qed.

(** ** C99 *)
(** The same loop for a signed type panics in a debug build exactly for negative masks: [mask - 1]
    overflows once only the sign bit is left. Otherwise it is the unsigned function. *)
Lemma pdepw_loop_signed fuel w value mask bb r : 0 < w -> mask < 2 ^ w ->
  cnt (N.testbit mask) w < N.of_nat fuel ->
  pdepw_loop fuel w true value mask bb r =
    if N.testbit mask (w - 1) then Panic else pdepw_loop fuel w false value mask bb r.
Proof.
  intros Hw. revert mask bb r. induction fuel as [|fuel IH]; intros mask bb r Hm Hf; [lia|].
  cbn [pdepw_loop]. destruct (N.eqb_spec mask 0) as [->|Hn]; [now rewrite N.bits_0|].
  cbn [andb bind]. pose proof (ctz64_lt_w w mask Hn Hm) as Ht.
  pose proof (cnt_clear_low mask w Hn Ht) as Hc.
  destruct (N.eqb_spec mask (2 ^ (w - 1))) as [Hs|Hs]; cbn [andb bind].
  { rewrite Hs, testbit_pow2, N.eqb_refl. reflexivity. }
  rewrite IH; [|now apply land_lt_w|lia]. rewrite testbit_clear_low by auto.
  destruct (N.testbit mask (w - 1)) eqn:E; auto. cbn [andb].
  destruct (N.eqb_spec (w - 1) (ctz64 mask)) as [Et|]; auto. exfalso. apply Hs.
  destruct (ctz64_spec mask Hn) as [H1 H2]. apply N.bits_inj. intros i. rewrite testbit_pow2.
  destruct (N.eqb_spec i (w - 1)) as [->|]; auto.
  destruct (N.lt_ge_cases i (w - 1)); [apply H2; lia|]. apply (testbit_above_w w); auto. lia.
Qed.

Theorem C99_signed w value mask : 0 < w -> mask < 2 ^ w ->
  pdepw w true value mask =
    if N.testbit mask (w - 1) then Panic else Ok (pdep_hw w value mask).
Proof.
  intros Hw Hm. rewrite <- (proj2 (C98_hardware w value mask Hw Hm)). unfold pdepw.
  apply pdepw_loop_signed; auto. pose proof (cnt_le (N.testbit mask) w). lia.
Qed.

(** So the documented result is not returned for every mask. *)
Theorem C99_refuted : ~ forall w value mask, 0 < w -> value < 2 ^ w -> mask < 2 ^ w ->
  exists r, pdepw w true value mask = Ok r /\ deposited w value mask r.
Proof. intros H. destruct (H 8 1 128) as (r & E & _); try reflexivity. discriminate E. Qed.

Example C99_ex : pdepw 8 true 1 (256 - 1) = Panic /\ pdepw 8 true 2 20 = Ok 16 /\
  pdep_hw 8 1 (256 - 1) = 1.
Proof. vm_compute. auto. Qed.
