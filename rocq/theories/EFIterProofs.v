(** * Proofs about the Elias-Fano iterators. *)
From Verif Require Import Base Spec BaseFacts WordFacts BitVecModel BitVecProofs BitVecProofs2
  RsVecModel RsVecProofs RsVecSelect IterSpec IterFacts IterLazy RsIterModel RsIterProofs RsEqProofs
  GenIterModel GenIterProofs EFModel EFProofs EFQuery.

Lemma slice_next {A} (l : list A) i r : dropN 1 (sliceN i r l) = sliceN (i + 1) (r - 1) l.
Proof. unfold sliceN. now rewrite dropN_takeN, dropN_dropN. Qed.

Lemma slice_back {A} (l : list A) i r : i + r <= lenN l ->
  takeN (lenN (sliceN i r l) - 1) (sliceN i r l) = sliceN i (r - 1) l /\
  getN (rev (sliceN i r l)) 0 = if 0 <? r then getN l (i + r - 1) else None.
Proof.
  intros H. rewrite getN_rev, lenN_sliceN by auto. split.
  - unfold sliceN. rewrite takeN_min. f_equal. lia.
  - destruct (N.ltb_spec 0 r); auto. rewrite getN_sliceN. destruct (N.ltb_spec (r - 1 - 0) r); [|lia]. f_equal. lia.
Qed.

Lemma slice_drop {A} (l : list A) i r k : dropN k (sliceN i r l) = sliceN (i + k) (r - k) l.
Proof. unfold sliceN. now rewrite dropN_takeN, dropN_dropN. Qed.

Section EFIter.
Variables (data : list N) (w : N) (e : ef).
Hypothesis Hsorted : nondecreasing data.
Hypothesis Hwords : Forall (fun x => x < U64) data.
Hypothesis Hne : 0 < lenN data.
Hypothesis Hw : w < 64.
Hypothesis G : ef_good data w e.
Hypothesis Hn : lenN data < U64.
Local Notation n := (lenN data).
Local Notation D := (nthN 0 data).
Local Notation W := (eW data).
Local Notation U := (eU data w).
Local Notation L := (eL data w).
Local Notation Pos := (ePos data w).
Local Notation B := (U (n - 1)).
Local Notation m := (2 + n + B).

Definition ePl : list N := map Pos (range 0 n).
Lemma getN_ePl k : k < n -> getN ePl k = Some (Pos k).
Proof using Hsorted Hwords Hne Hw G Hn.
  intros Hk. unfold ePl. rewrite (getN_ok 0) by (rewrite lenN_map, lenN_range; lia).
  rewrite (nthN_map _ 0), nthN_range by (rewrite ?lenN_range; lia). reflexivity.
Qed.
Lemma lenN_ePl : lenN ePl = n.
Proof using Hsorted Hwords Hne Hw G Hn. unfold ePl. rewrite lenN_map, lenN_range. lia. Qed.

Lemma up_positions : exists bv, wf bv /\ rs_good bv (ef_upper e) /\ posz false bv = ePl.
Proof using Hsorted Hwords Hne Hw G Hn.
  destruct (up_bits data w e Hsorted Hwords Hne Hw G) as (bv & H1 & H2 & H3 & H4 & H5).
  exists bv. split; [auto|]. split; [auto|].
  assert (HPm : forall k, k < n -> Pos k < m).
  { intros k Hk. pose proof (eU_mono data w Hsorted Hwords Hne Hw k (n - 1) ltac:(lia) ltac:(lia)). unfold ePos. lia. }
  assert (Elen : lenN (posz false bv) = n).
  { rewrite lenN_posz. unfold fz. rewrite H3, H5 by lia. rewrite (cnt_ext _ (fun _ => true)), cnt_true; auto.
    intros k Hk. specialize (HPm k Hk). lia. }
  apply (list_ext 0); [now rewrite lenN_ePl|]. intros k Hk. rewrite Elen in Hk.
  assert (E : getN (posz false bv) k = Some (Pos k)).
  { unfold posz. apply getN_positions. specialize (HPm k Hk). rewrite lenN_bits, H3. split; auto.
    rewrite nthN_bits by lia. split; [apply H4; eauto|].
    change (count (negb false) (takeN (Pos k) (bits bv))) with (rank_spec true (bits bv) (Pos k)). rewrite bits_rank, H3, N.min_l by lia. rewrite H5 by lia.
    rewrite (cnt_ext _ (fun j => j <? k)), cnt_below; [auto|lia|]. intros i Hi.
    destruct (N.lt_trichotomy i k) as [T|[T|T]].
    - pose proof (ePos_mono data w Hsorted Hwords Hne Hw i k T Hk). lia.
    - subst. lia.
    - pose proof (ePos_mono data w Hsorted Hwords Hne Hw k i T Hi). lia. }
  rewrite (getN_ok 0) in E by lia. injection E as ->.
  pose proof (getN_ePl k Hk) as E. rewrite (getN_ok 0) in E by (rewrite lenN_ePl; lia). now injection E as ->.
Qed.

Lemma ei_value_ok k : k < n -> ei_value e (Pos k) k = Ok (W k).
Proof using Hsorted Hwords Hne Hw G Hn.
  intros Hk. unfold ei_value, ePos. rewrite sub_ok by lia. cbn [bind]. rewrite sub_ok by lia. cbn [bind].
  rewrite (low_ok data w e G) by auto. cbn [bind]. rewrite (eg_w _ _ _ G).
  replace (U k + k + 1 - k - 1) with (U k) by lia.
  destruct (uL_lt data w e Hsorted Hwords Hne Hw G k Hk) as (H1 & H2 & H3).
  rewrite shl64_chk_exact by auto. cbn [bind].
  rewrite <- N.shiftl_mul_pow2, lor_shift by now apply (eL_lt data w). now rewrite <- H3.
Qed.
Lemma ei_value_add k : k < n -> (let* v := ei_value e (Pos k) k in add64 v (ef_zero e)) = Ok (D k).
Proof using Hsorted Hwords Hne Hw G Hn.
  intros Hk. rewrite ei_value_ok by auto. cbn [bind]. rewrite (eg_zero _ _ _ G).
  pose proof (eW_val data w Hsorted Hwords Hne Hw k Hk). pose proof (data_lt data w Hsorted Hwords Hne Hw k Hk).
  rewrite add64_ok by lia. f_equal. lia.
Qed.

(** The remaining elements, as seen by the index pair and by the select iterator. *)
Definition ei_R (it : ef_iter) (v : list N) : Prop :=
  gi_inv n (ei_gi it) /\ v = sliceN (gi_index (ei_gi it)) (gi_rem (ei_gi it)) data /\
  exists bv, wf bv /\ rs_good bv (ef_upper e) /\ posz false bv = ePl /\
    sel_R false bv (ef_upper e) (ei_up it) (sliceN (gi_index (ei_gi it)) (gi_rem (ei_gi it)) ePl).

Lemma ei_len_v it v : ei_R it v -> lenN v = gi_rem (ei_gi it).
Proof using Hsorted Hwords Hne Hw G Hn. intros (I & -> & _). apply lenN_sliceN. now apply gi_inv_bound. Qed.

Lemma ef_iter_new_ok : exists it, ef_iter_new e = Ok it /\ ei_R it data /\ gi_index (ei_gi it) = 0.
Proof using Hsorted Hwords Hne Hw G Hn.
  destruct up_positions as (bv & H1 & H2 & H3). unfold ef_iter_new.
  destruct (sel_new_ok false bv (ef_upper e) H1 H2) as (u & E & R). rewrite E. cbn [bind]. rewrite (eg_n _ _ _ G).
  destruct (gi_new_inv n) as (I & Hi & Hr). eexists. split; [reflexivity|]. split; [|exact Hi].
  split; [exact I|]. cbn [ei_gi ei_up]. rewrite Hi, Hr. split; [now rewrite sliceN_all|].
  exists bv. repeat (split; [auto|]). rewrite <- lenN_ePl at 1. rewrite sliceN_all, <- H3. exact R.
Qed.

Lemma ei_next_ok it v : ei_R it v ->
  exists it', ei_next e it = Ok (it', getN v 0) /\ ei_R it' (dropN 1 v) /\
    gi_index (ei_gi it') = gi_index (ei_gi it) + N.min 1 (lenN v).
Proof using Hsorted Hwords Hne Hw G Hn.
  intros R. pose proof (ei_len_v it v R) as El. destruct R as (I & Hv & bv & H1 & H2 & H3 & S).
  destruct it as [u gi]. cbn [ei_gi ei_up] in *. pose proof (gi_inv_bound _ _ I) as Bd.
  unfold ei_next. cbn [ei_gi ei_up].
  destruct (sel_next_ok false bv (ef_upper e) H1 H2 u _ S) as (u' & E & S'). rewrite E. cbn [bind].
  rewrite slice_next in S'. rewrite getN_sliceN. rewrite El. rewrite Hv, slice_next, getN_sliceN.
  destruct (N.ltb_spec 0 (gi_rem gi)) as [Hr|Hr].
  - rewrite N.add_0_r. rewrite getN_ePl by lia.
    pose proof (ei_value_add (gi_index gi) ltac:(lia)) as Ev.
    destruct (ei_value e (Pos (gi_index gi)) (gi_index gi)) as [x| |]; cbn [bind] in *; try discriminate.
    rewrite Ev. cbn [bind]. rewrite (getN_ok 0) by lia.
    eexists. split; [reflexivity|]. cbn [ei_gi gi_index]. split; [|lia]. unfold ei_R. cbn [ei_gi ei_up gi_index].
    assert (Er : gi_rem (mkgi (gi_index gi + 1) (gi_back gi)) = gi_rem gi - 1) by (unfold gi_rem; cbn; lia).
    rewrite Er. split.
    + destruct I as [I1 I2]. unfold gi_rem in Hr. split; cbn.
      * intros Hb. rewrite Hb in Hr. lia.
      * intros b Hb. specialize (I2 b Hb). rewrite Hb in Hr. lia.
    + split; auto. exists bv. auto.
  - eexists. split; [reflexivity|]. cbn [ei_gi gi_index]. split; [|lia]. unfold ei_R. cbn [ei_gi ei_up gi_index].
    replace (gi_rem gi - 1) with 0 in * by lia. replace (gi_rem gi) with 0 by lia. rewrite !sliceN_0 in *.
    repeat (split; [auto|]). exists bv. auto.
Qed.

Lemma ei_next_back_ok it v : ei_R it v ->
  exists it', ei_next_back e it = Ok (it', getN (rev v) 0) /\ ei_R it' (takeN (lenN v - 1) v) /\
    gi_index (ei_gi it') = gi_index (ei_gi it).
Proof using Hsorted Hwords Hne Hw G Hn.
  intros R. pose proof (ei_len_v it v R) as El. destruct R as (I & Hv & bv & H1 & H2 & H3 & S).
  destruct it as [u gi]. cbn [ei_gi ei_up] in *. pose proof (gi_inv_bound _ _ I) as Bd.
  unfold ei_next_back. cbn [ei_gi ei_up].
  destruct (sel_next_back_ok false bv (ef_upper e) H1 H2 u _ S) as (u' & E & S'). rewrite E. cbn [bind].
  destruct (slice_back ePl (gi_index gi) (gi_rem gi)) as [Ea Eb]; [now rewrite lenN_ePl|]. rewrite Ea in S'. rewrite Eb.
  rewrite Hv. destruct (slice_back data (gi_index gi) (gi_rem gi) Bd) as [-> ->].
  destruct (N.ltb_spec 0 (gi_rem gi)) as [Hr|Hr].
  - pose proof I as [I1 I2]. unfold gi_rem in Hr. destruct (gi_back gi) as [b|] eqn:Eg; [|lia].
    destruct (I2 b eq_refl) as [Hb Hi]. assert (Er0 : gi_rem gi = b + 1 - gi_index gi) by (unfold gi_rem; now rewrite Eg).
    replace (gi_index gi + gi_rem gi - 1) with b by lia. rewrite getN_ePl by lia.
    pose proof (ei_value_add b ltac:(lia)) as Ev.
    destruct (ei_value e (Pos b) b) as [x| |]; cbn [bind] in *; try discriminate.
    rewrite Ev. cbn [bind]. rewrite (getN_ok 0) by lia.
    eexists. split; [reflexivity|]. split; [|reflexivity]. unfold ei_R. cbn [ei_gi ei_up gi_index].
    assert (Er : gi_rem (mkgi (gi_index gi) (gi_dec b)) = gi_rem gi - 1).
    { rewrite Er0. unfold gi_rem, gi_dec. cbn. destruct (N.eqb_spec b 0); lia. }
    rewrite Er. split.
    + unfold gi_dec. split; cbn; destruct (N.eqb_spec b 0); try discriminate; try lia. intros b' [= <-]; lia.
    + split; auto. exists bv. auto.
  - eexists. split; [reflexivity|]. split; [|reflexivity]. unfold ei_R. cbn [ei_gi ei_up gi_index].
    replace (gi_rem gi - 1) with 0 in * by lia. replace (gi_rem gi) with 0 by lia. rewrite !sliceN_0 in *.
    repeat (split; [auto|]). exists bv. auto.
Qed.

Lemma ei_advance_by_ok it v k : ei_R it v -> k <= lenN v ->
  exists it', ei_advance_by e it k = Ok (Some it') /\ ei_R it' (dropN k v) /\
    gi_index (ei_gi it') = gi_index (ei_gi it) + k.
Proof using Hsorted Hwords Hne Hw G Hn.
  intros R Hk. pose proof (ei_len_v it v R) as El. unfold ei_advance_by. destruct (N.eqb_spec k 0) as [->|E0].
  { exists it. split; auto. split; [|lia]. exact R. }
  destruct R as (I & Hv & bv & H1 & H2 & H3 & S). pose proof (gi_inv_bound _ _ I) as Bd.
  pose proof (gi_advance_by_ok n (ei_gi it) k Hn I ltac:(lia)) as Ha.
  destruct (N.leb_spec k (gi_rem (ei_gi it))); [|lia]. destruct Ha as (E & I' & Er). rewrite E. cbn [bind].
  destruct (sel_nth_ok false bv (ef_upper e) H1 H2 (ei_up it) _ (k - 1) S) as (u' & Eu & S'). rewrite Eu. cbn [bind].
  replace (k - 1 + 1) with k in S' by lia. rewrite slice_drop in S'.
  rewrite getN_sliceN. destruct (N.ltb_spec (k - 1) (gi_rem (ei_gi it))); [|lia]. rewrite getN_ePl by lia.
  eexists. split; [reflexivity|]. split; [|reflexivity]. unfold ei_R. cbn [ei_gi ei_up].
  rewrite Er. cbn [gi_index]. split; auto. rewrite Hv, slice_drop. split; auto. exists bv. auto.
Qed.
Lemma ei_advance_by_over it v k : ei_R it v -> lenN v < k -> gi_index (ei_gi it) + k < U64 ->
  ei_advance_by e it k = Ok None.
Proof using Hsorted Hwords Hne Hw G Hn.
  intros R Hk Ho. pose proof (ei_len_v it v R) as El. unfold ei_advance_by. destruct (N.eqb_spec k 0) as [->|E0]; [lia|].
  destruct R as (I & _). pose proof (gi_advance_by_ok n (ei_gi it) k Hn I Ho) as Ha.
  destruct (N.leb_spec k (gi_rem (ei_gi it))); [lia|]. now rewrite Ha.
Qed.
Lemma ei_advance_back_by_ok it v k : ei_R it v -> k <= lenN v ->
  exists it', ei_advance_back_by e it k = Ok (Some it') /\ ei_R it' (takeN (lenN v - k) v) /\
    gi_index (ei_gi it') = gi_index (ei_gi it).
Proof using Hsorted Hwords Hne Hw G Hn.
  intros R Hk. pose proof (ei_len_v it v R) as El. unfold ei_advance_back_by. destruct (N.eqb_spec k 0) as [->|E0].
  { exists it. split; auto. split; [|auto]. rewrite N.sub_0_r, takeN_all by lia. exact R. }
  destruct R as (I & Hv & bv & H1 & H2 & H3 & S). pose proof (gi_inv_bound _ _ I) as Bd.
  pose proof (gi_advance_back_by_ok n (ei_gi it) k I) as Ha.
  destruct (N.leb_spec k (gi_rem (ei_gi it))); [|lia]. destruct Ha as (gi' & E & Ei & I' & Er). rewrite E. cbn [bind].
  assert (Els : lenN (sliceN (gi_index (ei_gi it)) (gi_rem (ei_gi it)) ePl) = gi_rem (ei_gi it))
    by (apply lenN_sliceN; rewrite lenN_ePl; auto).
  destruct (sel_nth_back_ok false bv (ef_upper e) H1 H2 (ei_up it) _ (k - 1) S) as (u' & Eu & S'); [left; lia|].
  rewrite Eu. cbn [bind]. rewrite Els in S'. replace (k - 1 + 1) with k in S' by lia.
  rewrite getN_rev, Els. destruct (N.ltb_spec (k - 1) (gi_rem (ei_gi it))); [|lia].
  rewrite getN_sliceN. destruct (N.ltb_spec (gi_rem (ei_gi it) - 1 - (k - 1)) (gi_rem (ei_gi it))); [|lia].
  rewrite getN_ePl by lia.
  eexists. split; [reflexivity|]. split; [|exact Ei]. unfold ei_R. cbn [ei_gi ei_up]. rewrite Er, Ei. split; auto.
  split.
  - rewrite El, Hv. unfold sliceN. rewrite takeN_min. f_equal. lia.
  - exists bv. repeat (split; [auto|]).
    replace (sliceN (gi_index (ei_gi it)) (gi_rem (ei_gi it) - k) ePl)
      with (takeN (gi_rem (ei_gi it) - k) (sliceN (gi_index (ei_gi it)) (gi_rem (ei_gi it)) ePl)); auto.
    unfold sliceN. rewrite takeN_min. f_equal. lia.
Qed.
Lemma ei_advance_back_by_over it v k : ei_R it v -> lenN v < k -> ei_advance_back_by e it k = Ok None.
Proof using Hsorted Hwords Hne Hw G Hn.
  intros R Hk. pose proof (ei_len_v it v R) as El. unfold ei_advance_back_by. destruct (N.eqb_spec k 0) as [->|E0]; [lia|].
  destruct R as (I & _). pose proof (gi_advance_back_by_ok n (ei_gi it) k I) as Ha.
  destruct (N.leb_spec k (gi_rem (ei_gi it))); [lia|]. now rewrite Ha.
Qed.

Lemma ei_step_exact it v op : ei_R it v ->
  match lazy_step (gi_index (ei_gi it), v) op with
  | Ok ((f', v'), o) => exists it', ei_step e it op = Ok (it', o) /\ ei_R it' v' /\ gi_index (ei_gi it') = f'
  | r => ei_step e it op = Panic /\ r = Panic
  end.
Proof using Hsorted Hwords Hne Hw G Hn.
  intros R.
  assert (Hnth : forall k, k <= lenN v -> exists it', ei_nth e it k = Ok (it', getN v k) /\ ei_R it' (dropN (k + 1) v) /\
     gi_index (ei_gi it') = gi_index (ei_gi it) + N.min (k + 1) (lenN v)).
  { intros k Hk. destruct (ei_advance_by_ok it v k R Hk) as (it1 & E1 & R1 & I1). unfold ei_nth. rewrite E1. cbn [bind].
    destruct (ei_next_ok it1 _ R1) as (it2 & E2 & R2 & I2). exists it2. rewrite E2, getN_dropN, N.add_0_r.
    rewrite dropN_dropN in R2. split; [auto|]. split; [auto|]. rewrite I2, I1, lenN_dropN. lia. }
  destruct op as [| |k|k|]; cbn [ei_step lazy_step].
  - destruct (ei_next_ok it v R) as (it' & E & R' & I'). rewrite E. cbn [bind]. eauto.
  - destruct (ei_next_back_ok it v R) as (it' & E & R' & I'). rewrite E. cbn [bind]. eauto.
  - destruct (N.ltb_spec 0 k) as [H0|H0]; cbn [andb].
    + destruct (N.leb_spec (2 ^ 64) (gi_index (ei_gi it) + k)) as [H|H].
      { unfold ei_nth, ei_advance_by. destruct (N.eqb_spec k 0); [lia|]. rewrite gi_advance_by_overflow by (auto; lia). auto. }
      destruct (N.ltb_spec (lenN v) k) as [H1|H1].
      { unfold ei_nth. rewrite (ei_advance_by_over it v k R H1 H). cbn [bind]. eauto. }
      destruct (Hnth k H1) as (it' & E & R' & I'). rewrite E. cbn [bind]. eauto.
    + destruct (N.ltb_spec (lenN v) k) as [H1|H1]; [lia|].
      destruct (Hnth k H1) as (it' & E & R' & I'). rewrite E. cbn [bind]. eauto.
  - unfold ei_nth_back. destruct (N.ltb_spec (lenN v) k) as [H1|H1].
    + rewrite (ei_advance_back_by_over it v k R H1). cbn [bind]. eauto.
    + destruct (ei_advance_back_by_ok it v k R H1) as (it1 & E1 & R1 & I1). rewrite E1. cbn [bind].
      destruct (ei_next_back_ok it1 _ R1) as (it2 & E2 & R2 & I2). rewrite E2. cbn [bind].
      assert (Hlen' : lenN (takeN (lenN v - k) v) = lenN v - k) by (rewrite lenN_takeN; lia).
      rewrite Hlen', takeN_min in R2.
      replace (N.min (lenN v - k - 1) (lenN v - k)) with (lenN v - (k + 1)) in R2 by lia.
      assert (Eg : getN (rev (takeN (lenN v - k) v)) 0 = getN (rev v) k).
      { rewrite !getN_rev, Hlen'. destruct (N.ltb_spec 0 (lenN v - k)), (N.ltb_spec k (lenN v)); try lia; auto.
        rewrite getN_takeN. destruct (N.ltb_spec (lenN v - k - 1 - 0) (lenN v - k)); [|lia]. f_equal. lia. }
      rewrite Eg. exists it2. split; auto. split; auto. congruence.
  - unfold ei_len. rewrite (ei_len_v it v R), (gi_len_ok n) by (auto; apply R). eauto.
Qed.

(** [last] and [max] forget to add the smallest element back. *)
Lemma ei_last_ok it v : ei_R it v -> ei_last e it = Ok (option_map (fun x => x - D 0) (getN (rev v) 0)).
Proof using Hsorted Hwords Hne Hw G Hn.
  intros R. pose proof (ei_len_v it v R) as El. destruct R as (I & Hv & bv & H1 & H2 & H3 & S).
  pose proof (gi_inv_bound _ _ I) as Bd. unfold ei_last. rewrite (gi_empty_rem n _ I).
  rewrite Hv. destruct (slice_back data (gi_index (ei_gi it)) (gi_rem (ei_gi it)) Bd) as [_ ->].
  destruct (N.eqb_spec (gi_rem (ei_gi it)) 0) as [E0|E0], (N.ltb_spec 0 (gi_rem (ei_gi it))); try lia; auto.
  rewrite (sel_last_ok false bv (ef_upper e) H1 H2 _ _ S). cbn [bind].
  destruct (slice_back ePl (gi_index (ei_gi it)) (gi_rem (ei_gi it))) as [_ ->]; [now rewrite lenN_ePl|].
  destruct (N.ltb_spec 0 (gi_rem (ei_gi it))); [|lia]. rewrite getN_ePl by lia.
  unfold gi_rem in *. destruct I as [I1 I2]. destruct (gi_back (ei_gi it)) as [b|] eqn:Eg; [|lia]. destruct (I2 b eq_refl).
  replace (gi_index (ei_gi it) + (b + 1 - gi_index (ei_gi it)) - 1) with b by lia.
  rewrite ei_value_ok by lia. cbn [bind]. now rewrite (getN_ok 0) by lia.
Qed.
Lemma ei_min_ok it v : ei_R it v -> ei_min e it = Ok (getN v 0).
Proof using Hsorted Hwords Hne Hw G Hn.
  intros R. destruct (ei_next_ok it v R) as (it' & E & _). unfold ei_min. now rewrite E.
Qed.
End EFIter.

(** The iterator over an empty vector. *)
Lemma dropN_nil {A} k : dropN k (@nil A) = [].
Proof. unfold dropN. now rewrite skipn_nil. Qed.
Lemma takeN_nil {A} k : takeN k (@nil A) = [].
Proof. unfold takeN. now rewrite firstn_nil. Qed.
Section EFIterEmpty.
Variable e : ef.
Hypothesis G : rs_good bv_new (ef_upper e).
Hypothesis Hn0 : ef_n e = 0.
Definition ei_R0 (it : ef_iter) : Prop :=
  ei_gi it = gi_new 0 /\ sel_R false bv_new (ef_upper e) (ei_up it) [].
Lemma ef_iter_new_empty : exists it, ef_iter_new e = Ok it /\ ei_R0 it.
Proof using G Hn0.
  destruct (sel_new_ok false bv_new (ef_upper e) bv_new_wf G) as (u & E & R). unfold ef_iter_new. rewrite E. cbn [bind].
  rewrite Hn0. eexists. split; [reflexivity|]. split; [reflexivity|exact R].
Qed.
Lemma ei_step_empty it op : ei_R0 it ->
  match lazy_step (0, []) op with
  | Ok ((f', v'), o) => exists it', ei_step e it op = Ok (it', o) /\ ei_R0 it' /\ f' = 0 /\ v' = []
  | r => ei_step e it op = Panic /\ r = Panic
  end.
Proof using G Hn0.
  intros (Eg & S). destruct it as [u gi]. cbn [ei_gi ei_up] in *. subst gi.
  destruct (sel_next_ok false bv_new (ef_upper e) bv_new_wf G u [] S) as (u1 & E1 & S1).
  destruct (sel_next_back_ok false bv_new (ef_upper e) bv_new_wf G u [] S) as (u2 & E2 & S2).
  rewrite dropN_nil in S1. rewrite takeN_nil in S2.
  assert (Hnext : ei_next e (mkei u (gi_new 0)) = Ok (mkei u1 (gi_new 0), None)).
  { unfold ei_next. cbn [ei_up ei_gi]. rewrite E1. reflexivity. }
  assert (Hback : ei_next_back e (mkei u (gi_new 0)) = Ok (mkei u2 (gi_new 0), None)).
  { unfold ei_next_back. cbn [ei_up ei_gi]. rewrite E2. reflexivity. }
  destruct op as [| |k|k|]; cbn [ei_step lazy_step].
  - rewrite Hnext. cbn [bind]. eexists. split; [reflexivity|]. split; [split; auto|auto].
  - rewrite Hback. cbn [bind]. eexists. split; [reflexivity|]. split; [split; auto|auto].
  - change (lenN (@nil N)) with 0. destruct (N.ltb_spec 0 k) as [H0|H0]; cbn [andb].
    + unfold ei_nth, ei_advance_by. destruct (N.eqb_spec k 0); [lia|]. cbn [ei_gi].
      destruct (N.leb_spec (2 ^ 64) (0 + k)) as [H|H].
      * rewrite gi_advance_by_overflow by (change (gi_index (gi_new 0)) with 0; auto; lia). auto.
      * unfold gi_advance_by. destruct (N.eqb_spec k 0); [lia|]. cbn. rewrite (add64_ok 0 k) by (change U64 with (2 ^ 64); lia). cbn. eexists. split; [reflexivity|]. split; [split; auto|auto].
    + replace k with 0 by lia. unfold ei_nth, ei_advance_by. cbn [N.eqb bind]. rewrite Hnext. cbn [bind].
      eexists. split; [reflexivity|]. split; [split; auto|auto].
  - change (lenN (@nil N)) with 0. destruct (N.ltb_spec 0 k) as [H0|H0].
    + unfold ei_nth_back, ei_advance_back_by. destruct (N.eqb_spec k 0); [lia|]. cbn [ei_gi].
      unfold gi_advance_back_by. destruct (N.eqb_spec k 0); [lia|].
      cbn. eexists. split; [reflexivity|]. split; [split; auto|auto].
    + replace k with 0 by lia. unfold ei_nth_back, ei_advance_back_by. cbn [N.eqb bind]. rewrite Hback. cbn [bind].
      eexists. split; [reflexivity|]. split; [split; auto|auto].
  - eexists. split; [reflexivity|]. split; [split; auto|auto].
Qed.
End EFIterEmpty.
