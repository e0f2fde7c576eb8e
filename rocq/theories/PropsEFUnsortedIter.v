(** * Property C142: reading and iterating Elias-Fano vectors of unsorted data in a release build. *)
From Verif Require Import Base Spec BaseFacts WordFacts IterSpec IterFacts IterLazy BitVecModel BitVecProofs BitVecProofs2 RsVecModel RsVecProofs RsVecSelect RsIterModel RsIterProofs
  RsEqProofs GenIterModel GenIterProofs EFModel EFProofs EFIterProofs PropsEF ReleaseModel PropsRelease PropsBitSet UncheckedReleaseModel PropsSurplus PropsStored
  EFReleaseModel PropsEFRelease PropsEFUnsorted EFIterReleaseModel PropsEFIterRelease.

Local Notation wsub := wrapping_sub.
Local Notation wadd := wrapping_add.
Local Notation wmul := wrapping_mul.

(** The distance of an element from the first, and the place of its mark: the high part of the distance plus the index plus one. *)
Definition unsorted_distance (data : list N) (k : N) : N := (nthN 0 data k + 2 ^ 64 - nthN 0 data 0) mod 2 ^ 64.
Definition unsorted_place (data : list N) (w k : N) : N := (unsorted_distance data k / 2 ^ w + k + 1) mod 2 ^ 64.
(** The marks that remain: two elements with the same place cancel. *)
Definition unsorted_marks (data : list N) (w : N) : list N :=
  let n := lenN data in
  filter (fun p => N.odd (lenN (filter (fun k => unsorted_place data w k =? p) (range 0 n))))
    (range 0 (2 + n + unsorted_distance data (n - 1) / 2 ^ w)).
(** What is read for a mark at [p] and the low part of element [i]. *)
Definition unsorted_value (data : list N) (w p i : N) : N :=
  ((p + 2 ^ 64 - 1 - i) * 2 ^ w + unsorted_distance data i mod 2 ^ w + nthN 0 data 0) mod 2 ^ 64.

(** The iterator after [a] elements from the front and [b] from the back. *)
Definition unsorted_step (data : list N) (w : N) (s : N * N) (op : iter_op) : res ((N * N) * iter_out N) :=
  let '(a, b) := s in
  let n := lenN data in
  let marks := unsorted_marks data w in
  let c := lenN marks in
  match op with
  | INext =>
      if a + b <? c then Ok ((a + 1, b), OItem (Some (unsorted_value data w (nthN 0 marks a) a))) else Ok (s, OItem None)
  | INextBack =>
      if a + b <? c then Ok ((a, b + 1), OItem (Some (unsorted_value data w (nthN 0 marks (c - 1 - b)) (n - 1 - b)))) else Ok (s, OItem None)
  | INth k =>
      if 2 ^ 64 <? a + k then Panic
      else if n <? a + b + k then Ok (s, OItem None)
      else if c <? a + b + k then Panic
      else if a + b + k =? c then Ok ((a + k, b), OItem None)
      else Ok ((a + k + 1, b), OItem (Some (unsorted_value data w (nthN 0 marks (a + k)) (a + k))))
  | ILen => Ok (s, OLen (n - a - b))
  | INthBack _ => Panic
  end.
(** [nth_back] is left out: C81 describes what it does in the iterator over the marks. *)
Definition not_nth_back (op : iter_op) : Prop := match op with INthBack _ => False | INth n => n < 2 ^ 64 | _ => True end.

Section Any.
Variables (data : list N) (w : N) (e : ef).
Hypothesis Hd : Forall (fun x => x < 2 ^ 64) data.
Hypothesis Hne : 0 < lenN data.
Hypothesis Hw : w < 64.
Local Notation n := (lenN data).
Local Notation m := (2 + n + high data w (n - 1)).
Hypothesis E : ef_from_slice_rel w data = Ok e.
Hypothesis Hm : m + 64 <= 2 ^ 64.
Hypothesis Hl : n * w <= 2 ^ 64.
Local Notation place := (place data w).
Local Notation P := (unsorted_marks data w).

Definition parity (i : N) (s : bitvec * bitvec) : Prop :=
  forall p, p < m -> bit_at (bdata (fst s)) p = N.odd (lenN (filter (fun k => place k =? p) (range 0 i))).
Lemma parity_step i s s' : i < n -> state data w i s -> fits data w i = true -> parity i s ->
  ef_push_rel w (nthN 0 data 0) s (i, nthN 0 data i) = Ok s' -> parity (i + 1) s'.
Proof using All.
  destruct s as [up l]. intros Hi (H1 & H2 & H3 & _) Hf HP. cbn [fst snd] in *.
  destruct (push_any data w Hd Hne Hw Hm i up l Hi H1 H2 H3) as (-> & l' & El & _).
  assert (Hp : place i < 64 * lenN (bdata up)) by (rewrite (proj1 H1), H2; unfold fits in Hf; lia).
  destruct (flip_any up (place i) H1 Hp) as (up' & Eu & _ & _ & Hb). rewrite Eu, El. cbn [bind]. intros Es. injection Es as <-. rewrite H2 in Hb.
  intros p Hq. cbn [fst]. rewrite Hb by auto. pose proof (HP p Hq) as HPp. cbn [fst] in HPp. rewrite HPp. rewrite range_succ_r by lia. rewrite filter_app, lenN_app. cbn [filter].
  rewrite N.eqb_sym. destruct (place i =? p); [|now rewrite N.add_0_r]. change (lenN [i]) with 1. rewrite N.add_1_r, N.odd_succ, <- N.negb_odd. reflexivity.
Qed.
Lemma built : exists up l u, state data w n (up, l) /\ parity n (up, l) /\ rs_good up u /\ e = mkef u l (nthN 0 data 0) (nthN 0 data (n - 1)) w n.
Proof using All.
  destruct (from_any data w Hd Hne Hw Hm) as [[_ E']|[Hg _]]; [congruence|].
  pose proof E as E0. revert E0. unfold ef_from_slice_rel. destruct (N.eqb_spec n 0) as [?|_]; [lia|]. rewrite !(idx_ok 0) by lia. cbn [bind].
  rewrite assert_true by lia. cbn [bind]. change (wsub (nthN 0 data (n - 1)) (nthN 0 data 0)) with (distance data (n - 1)). rewrite N.shiftr_div_pow2.
  change (distance data (n - 1) / 2 ^ w) with (high data w (n - 1)).
  assert (Em : wadd (wadd 2 n) (high data w (n - 1)) = m) by (rewrite (wadd_lt 2), wadd_lt by lia; reflexivity). rewrite Em. rewrite (combine_range 0), forM_map.
  destruct (forM_range_inv (fun i s => state data w i s /\ parity i s) 0 n (bv_from_zeros m, bv_new) (fun s x => ef_push_rel w (nthN 0 data 0) s (x, nthN 0 data x))) as ([up l] & E1 & S1 & S2).
  - lia.
  - split; [apply (state_0 data w Hd Hne Hw Hm)|]. intros p Hp. cbn [fst]. rewrite range_nil by lia.
    rewrite <- (nthN_bits false (bv_from_zeros m) p) by (change (blen (bv_from_zeros m)) with m; lia). rewrite (proj2 (bv_from_zeros_ok m)). now apply nthN_replicate.
  - intros i s _ Hi [Hs HP]. destruct (state_step data w Hd Hne Hw Hm i s Hi Hs (Hg i Hi)) as (s' & Es & Hs'). exists s'. split; [auto|]. split; [auto|].
    now apply (parity_step i s s' Hi Hs (Hg i Hi)).
  - rewrite E1. cbn [bind]. destruct (rs_from_bit_vec_ok up (proj1 S1)) as (u & Eu & G). rewrite Eu. cbn [bind]. intros Ee. injection Ee as Ee. exists up, l, u. rewrite Ee. auto.
Qed.
Lemma marks_up up l : state data w n (up, l) -> parity n (up, l) -> posz false up = P /\ lenN P <= n.
Proof using All.
  intros (H1 & H2 & _ & H4 & _) HP. cbn [fst snd] in *.
  assert (Ep : posz false up = P).
  { unfold posz, bits. rewrite positions_filter, H2. unfold unsorted_marks. change (unsorted_distance data (n - 1) / 2 ^ w) with (high data w (n - 1)).
    apply filter_ext_in. intros p Hp. apply In_range in Hp. pose proof (HP p ltac:(lia)) as HPp. cbn [fst] in HPp. rewrite HPp. cbn [negb]. change (unsorted_place data w) with place.
    match goal with |- Bool.eqb ?b true = _ => destruct b; reflexivity end. }
  split; [auto|]. rewrite <- Ep, lenN_posz, H2. exact H4.
Qed.
Lemma n_lt : n < 2 ^ 64.
Proof using Hm. revert Hm. generalize (high data w (n - 1)). clear. intros. lia. Qed.
Lemma value_any p i : i < n -> p < 2 ^ 64 -> wadd (N.lor (shl64 (wsub (wsub p i) 1) w) (low data w i)) (nthN 0 data 0) = unsorted_value data w p i.
Proof using All.
  intros Hi Hp. pose proof n_lt as Hn. rewrite shl_lor by (auto; apply N.mod_lt; now apply N.pow_nonzero).
  unfold unsorted_value. change (unsorted_distance data i mod 2 ^ w) with (low data w i).
  assert (Ex : wsub (wsub p i) 1 = (p + 2 ^ 64 - 1 - i) mod 2 ^ 64).
  { unfold wrapping_sub. change U64 with (2 ^ 64). rewrite <- N.add_sub_assoc by lia. rewrite N.add_mod_idemp_l by discriminate.
    replace (p + 2 ^ 64 - i + (2 ^ 64 - 1)) with (p + 2 ^ 64 - 1 - i + 1 * 2 ^ 64) by lia. rewrite N.mod_add by discriminate. reflexivity. }
  rewrite Ex. set (y := p + 2 ^ 64 - 1 - i). unfold wrapping_add. change U64 with (2 ^ 64). rewrite <- !N.add_assoc.
  rewrite N.mul_mod_idemp_l by discriminate. rewrite N.add_mod_idemp_l by discriminate. reflexivity.
Qed.

(** ** The iterator *)
Definition UR (up : bitvec) (it : ef_iter) (s : N * N) : Prop :=
  let '(a, b) := s in
  a + b <= lenN P /\ gi_inv n (ei_gi it) /\ gi_index (ei_gi it) = a /\ gi_rem (ei_gi it) = n - a - b /\
  sel_R false up (ef_upper e) (ei_up it) (sliceN a (lenN P - a - b) P).

Lemma marks_lt p k : getN P k = Some p -> p < 2 ^ 64.
Proof using All.
  intros Hg. apply getN_In in Hg. unfold unsorted_marks in Hg. apply filter_In in Hg. destruct Hg as [Hg _]. apply In_range in Hg.
  change (unsorted_distance data (n - 1) / 2 ^ w) with (high data w (n - 1)) in Hg. clear - Hg Hm. lia.
Qed.
Lemma read_any i p : i < n -> p < 2 ^ 64 -> exists v, ei_value_rel e p i = Ok v /\ wadd v (ef_zero e) = unsorted_value data w p i.
Proof using All.
  intros Hi Hp. destruct built as (up & l & u & S & _ & _ & Ee). destruct S as (_ & _ & HL & _). cbn [snd] in HL.
  unfold ei_value_rel, ef_low_rel. rewrite Ee. cbn [ef_lower ef_w ef_zero]. rewrite (low_any data w Hd Hne Hw Hm Hl l i HL Hi). cbn [bind].
  eexists. split; [reflexivity|]. now apply value_any.
Qed.

Section Run.
Variables (up : bitvec) (u : rsvec).
Hypothesis Wup : wf up.
Hypothesis G : rs_good up (ef_upper e).
Hypothesis HP : posz false up = P.
Hypothesis Hc : lenN P <= n.

Lemma next_any it a b : UR up it (a, b) ->
  exists it', ei_next_rel e it = Ok (it', if a + b <? lenN P then Some (unsorted_value data w (nthN 0 P a) a) else None) /\
    UR up it' (if a + b <? lenN P then (a + 1, b) else (a, b)).
Proof using All.
  intros (H1 & H2 & H3 & H4 & H5). unfold ei_next_rel. destruct (sel_next_ok false up (ef_upper e) Wup G _ _ H5) as (u' & Eu & R'). rewrite Eu. cbn [bind].
  rewrite slice_next in R'. rewrite getN_sliceN. destruct (N.ltb_spec (a + b) (lenN P)) as [L|L].
  - destruct (N.ltb_spec 0 (lenN P - a - b)); [|lia]. rewrite N.add_0_r, (getN_ok 0) by lia.
    destruct (read_any a (nthN 0 P a)) as (v & Ev & Er); [lia|apply (marks_lt _ a), getN_ok; lia|]. rewrite H3, Ev. cbn [bind]. rewrite Er.
    pose proof n_lt as Hn. rewrite wadd_lt by lia. eexists. split; [reflexivity|]. unfold UR. cbn [ei_gi ei_up gi_index].
    split; [lia|]. destruct H2 as [I1 I2]. unfold gi_rem in *. cbn [gi_back gi_index] in *. destruct (gi_back (ei_gi it)) as [bb|] eqn:Eb; [|lia].
    destruct (I2 bb eq_refl) as [J1 J2]. rewrite H3 in *. split; [|split; [auto|split; [lia|]]].
    + split; cbn [gi_back gi_index]; [discriminate|]. intros b' Eb'. injection Eb' as <-. lia.
    + replace (lenN P - (a + 1) - b) with (lenN P - a - b - 1) by lia. exact R'.
  - destruct (N.ltb_spec 0 (lenN P - a - b)); [lia|]. eexists. split; [reflexivity|]. unfold UR. cbn [ei_gi ei_up]. do 4 (split; [auto|]).
    replace (lenN P - a - b - 1) with 0 in R' by lia. replace (lenN P - a - b) with 0 by lia. rewrite sliceN_0 in *. exact R'.
Qed.
Lemma next_back_any it a b : UR up it (a, b) ->
  exists it', ei_next_back_rel e it = Ok (it', if a + b <? lenN P then Some (unsorted_value data w (nthN 0 P (lenN P - 1 - b)) (n - 1 - b)) else None) /\
    UR up it' (if a + b <? lenN P then (a, b + 1) else (a, b)).
Proof using All.
  intros (H1 & H2 & H3 & H4 & H5). unfold ei_next_back_rel. destruct (sel_next_back_ok false up (ef_upper e) Wup G _ _ H5) as (u' & Eu & R'). rewrite Eu. cbn [bind].
  destruct (slice_back P a (lenN P - a - b) ltac:(lia)) as [Ea Eb]. rewrite Ea in R'. rewrite Eb. destruct (N.ltb_spec (a + b) (lenN P)) as [L|L].
  - destruct (N.ltb_spec 0 (lenN P - a - b)); [|lia]. replace (a + (lenN P - a - b) - 1) with (lenN P - 1 - b) by lia. rewrite (getN_ok 0) by lia.
    destruct H2 as [I1 I2]. unfold gi_rem in H4. destruct (gi_back (ei_gi it)) as [bb|] eqn:Ebb; [|lia]. destruct (I2 bb eq_refl) as [J1 J2]. rewrite H3 in *.
    assert (bb = n - 1 - b) as -> by lia.
    destruct (read_any (n - 1 - b) (nthN 0 P (lenN P - 1 - b))) as (v & Ev & Er); [lia|apply (marks_lt _ (lenN P - 1 - b)), getN_ok; lia|]. rewrite Ev. cbn [bind]. rewrite Er.
    eexists. split; [reflexivity|]. unfold UR, gi_rem, gi_dec. cbn [ei_gi ei_up gi_index gi_back]. split; [lia|]. split; [|split; [auto|split]].
    + split; cbn [gi_back gi_index]; destruct (N.eqb_spec (n - 1 - b) 0); try discriminate; try lia. intros b' Eb'. injection Eb' as <-. lia.
    + destruct (N.eqb_spec (n - 1 - b) 0); lia.
    + replace (lenN P - a - (b + 1)) with (lenN P - a - b - 1) by lia. exact R'.
  - destruct (N.ltb_spec 0 (lenN P - a - b)); [lia|]. eexists. split; [reflexivity|]. unfold UR. cbn [ei_gi ei_up]. do 4 (split; [auto|]).
    replace (lenN P - a - b - 1) with 0 in R' by lia. replace (lenN P - a - b) with 0 by lia. rewrite sliceN_0 in *. exact R'.
Qed.
Lemma step_any it s op : not_nth_back op -> UR up it s ->
  match unsorted_step data w s op with
  | Ok (s', o) => exists it', ei_step_rel e it op = Ok (it', o) /\ UR up it' s'
  | r => ei_step_rel e it op = Panic /\ r = Panic
  end.
Proof using All.
  destruct s as [a b]. intros Ho R. destruct op as [| |k|k|]; cbn [unsorted_step ei_step_rel not_nth_back] in *; [| | |easy|].
  - destruct (next_any it a b R) as (it' & Ei & R'). rewrite Ei. cbn [bind]. destruct (a + b <? lenN P); eauto.
  - destruct (next_back_any it a b R) as (it' & Ei & R'). rewrite Ei. cbn [bind]. destruct (a + b <? lenN P); eauto.
  - destruct (N.eq_dec k 0) as [->|K0].
    + destruct (next_any it a b R) as (it' & Ei & R'). unfold ei_nth_rel, ei_advance_by_rel. change (0 =? 0) with true. cbn [bind]. rewrite Ei. cbn [bind].
      destruct R as (H1 & _). pose proof n_lt as Hn. rewrite !N.add_0_r. destruct (N.ltb_spec (2 ^ 64) a); [lia|].
      destruct (N.ltb_spec n (a + b)); [lia|]. destruct (N.ltb_spec (lenN P) (a + b)); [lia|].
      destruct (N.ltb_spec (a + b) (lenN P)); destruct (N.eqb_spec (a + b) (lenN P)); try lia; eauto.
    + pose proof R as (H1 & H2 & H3 & H4 & H5). pose proof n_lt as Hn. unfold ei_nth_rel, ei_advance_by_rel. destruct (N.eqb_spec k 0) as [?|_]; [easy|].
      destruct (sel_nth_ok false up (ef_upper e) Wup G _ _ (k - 1) H5) as (u' & Eu & R'). rewrite getN_sliceN in Eu.
      destruct (N.leb_spec (2 ^ 64) (a + k)) as [L|L].
      * (* the sum does not fit *)
        assert (Ap : 0 < a) by lia. pose proof (gi_len_ok n (ei_gi it) Hn H2) as El. destruct H2 as [I1 I2]. unfold gi_rem in H4, El.
        unfold gi_advance_by_rel. destruct (N.eqb_spec k 0) as [?|_]; [easy|]. rewrite H3, El.
        destruct (gi_back (ei_gi it)) as [bb|] eqn:Ebb; [|specialize (I1 eq_refl); lia]. destruct (I2 bb eq_refl) as [J1 J2]. rewrite H3 in *. cbn [some_gt].
        destruct (N.ltb_spec (2 ^ 64) (a + k)) as [L2|L2].
        -- assert (Eq1 : wadd a k = a + k - 2 ^ 64).
           { unfold wrapping_add. change U64 with (2 ^ 64). replace (a + k) with (a + k - 2 ^ 64 + 1 * 2 ^ 64) at 1 by lia. rewrite N.mod_add by discriminate. apply N.mod_small. lia. }
           rewrite Eq1, wsub_ge by lia. destruct (N.ltb_spec bb (a + k - 2 ^ 64 - 1)); [lia|]. cbn [bind]. rewrite Eu.
           destruct (N.ltb_spec (k - 1) (lenN P - a - b)); [lia|]. cbn [bind]. auto.
        -- assert (Q : a + k = 2 ^ 64) by lia. assert (Eq1 : wadd a k = 0) by (unfold wrapping_add; rewrite Q; reflexivity). rewrite Eq1.
           change (wsub 0 1) with (2 ^ 64 - 1). destruct (N.ltb_spec n (a + b + k)) as [_|]; [|lia]. destruct (N.ltb_spec bb (2 ^ 64 - 1)) as [_|]; [|lia].
           exists it. destruct (N.ltb_spec bb a); [auto|]. rewrite wsub_ge by lia. destruct (N.eqb_spec (k - (bb + 1 - a)) 0); [lia|]. auto.
      * destruct (N.ltb_spec (2 ^ 64) (a + k)) as [|_]; [lia|]. pose proof (gi_advance_by_ok n (ei_gi it) k Hn H2 ltac:(rewrite H3; exact L)) as Ha. rewrite H4, H3 in Ha.
        destruct (N.ltb_spec n (a + b + k)) as [L2|L2]; destruct (N.leb_spec k (n - a - b)) as [L3|L3]; try lia.
        { apply gi_adv_sim in Ha; auto. rewrite Ha. cbn [bind]. exists it. auto. }
        destruct Ha as (Ha & I' & Er). apply gi_adv_sim in Ha; auto. rewrite Ha. cbn [bind]. rewrite Eu.
        destruct (N.ltb_spec (lenN P) (a + b + k)) as [L4|L4]; destruct (N.ltb_spec (k - 1) (lenN P - a - b)) as [L5|L5]; try lia; cbn [bind]; [auto|].
        rewrite (getN_ok 0) by lia. cbn [bind]. replace (k - 1 + 1) with k in R' by lia. rewrite slice_drop in R'.
        assert (UR up (mkei u' (mkgi (a + k) (gi_back (ei_gi it)))) (a + k, b)) as R2.
        { unfold UR. cbn [ei_gi ei_up gi_index]. split; [lia|]. split; [auto|]. split; [auto|]. split; [lia|]. replace (lenN P - (a + k) - b) with (lenN P - a - b - k) by lia. exact R'. }
        destruct (next_any _ _ _ R2) as (it' & Ei & R3). rewrite Ei. cbn [bind].
        destruct (N.ltb_spec (a + k + b) (lenN P)); destruct (N.eqb_spec (a + b + k) (lenN P)); try lia; eauto.
  - exists it. split; [|auto]. do 3 f_equal. destruct R as (_ & H2 & _ & H4 & _). rewrite <- H4. apply (gi_len_ok n); auto. apply n_lt.
Qed.
Lemma run_any ops : Forall not_nth_back ops -> forall it s, UR up it s -> iter_run (ei_step_rel e) it ops = iter_run (unsorted_step data w) s ops.
Proof using All.
  induction 1 as [|op ops Ho _ IH]; intros it s R; [reflexivity|]. cbn [iter_run]. pose proof (step_any it s op Ho R) as H.
  destruct (unsorted_step data w s op) as [[s' o]| |].
  - destruct H as (it' & -> & R'). cbn [bind]. now rewrite (IH it' s' R').
  - destruct H as [-> _]. reflexivity.
  - destruct H as [_ [=]].
Qed.
End Run.

(** ** C142 *)
(** What [get] returns, for every index. *)
Theorem C142_get i : ef_get_rel e i =
  Ok (if i <? n then Some (unsorted_value data w (match getN P i with Some p => p | None => 2 + n + unsorted_distance data (n - 1) / 2 ^ w end) i) else None).
Proof using All.
  destruct built as (up & l & u & S & HP & G & Ee). destruct (marks_up up l S HP) as [Em Hc]. pose proof S as (Wup & Lm & HL & _). cbn [fst snd] in *.
  unfold ef_get_rel. rewrite Ee at 1. cbn [ef_n]. destruct (N.leb_spec n i) as [L|L]; destruct (N.ltb_spec i n) as [L'|L']; try lia; [reflexivity|].
  unfold ef_get_unchecked_rel. rewrite Ee. cbn [ef_upper ef_lower ef_w ef_zero]. rewrite (rs_select1_ok up) by auto. cbn [bind].
  rewrite (low_any data w Hd Hne Hw Hm Hl l i HL L'). cbn [bind]. unfold select_spec. change (positions true (bits up)) with (posz false up). rewrite Em, lenN_bits, Lm.
  rewrite value_any; [reflexivity|auto|]. destruct (getN P i) as [p|] eqn:Eg; [now apply (marks_lt p i)|]. clear - Hm. lia.
Qed.
(** What the iterators do, for every sequence of calls. *)
Theorem C142_iter ops : Forall not_nth_back ops ->
  exists it, ef_iter_new e = Ok it /\ iter_run (ei_step_rel e) it ops = iter_run (unsorted_step data w) (0, 0) ops.
Proof using All.
  intros Ho. destruct built as (up & l & u & S & HP & G & Ee). destruct (marks_up up l S HP) as [Em Hc]. pose proof S as (Wup & Lm & HL & _). cbn [fst snd] in *.
  assert (Eu : ef_upper e = u) by now rewrite Ee. assert (En : ef_n e = n) by now rewrite Ee.
  unfold ef_iter_new. rewrite Eu, En. destruct (sel_new_ok false up u Wup G) as (it & Ei & R). rewrite Ei. cbn [bind]. eexists. split; [reflexivity|].
  apply (run_any up u Wup ltac:(now rewrite Eu) Em Hc); auto. unfold UR. cbn [ei_gi ei_up]. destruct (gi_new_inv n) as (I1 & I2 & I3). split; [lia|].
  split; [auto|]. split; [auto|]. split; [rewrite I3; lia|]. rewrite Eu. rewrite Em in R. rewrite !N.sub_0_r, sliceN_all. exact R.
Qed.
(** So a loop over [next] yields the elements that [get] returns, but stops where the marks run out, while [len] still counts the others. *)
Theorem C142_loop k : let c := lenN P in
  c <= n /\
  exists it, ef_iter_new e = Ok it /\
    iter_run (ei_step_rel e) it (repeat INext k ++ [ILen]) =
      Ok (map (fun i => OItem (if i <? c then match ef_get_rel e i with Ok o => o | _ => None end else None)) (range 0 (N.of_nat k)) ++ [OLen (n - N.min (N.of_nat k) c)]).
Proof using All.
  intros c. destruct built as (up & l & u & S & HP & _). destruct (marks_up up l S HP) as [_ Hc]. split; [exact Hc|].
  destruct (C142_iter (repeat INext k ++ [ILen])) as (it & H1 & H2).
  { apply Forall_app. split; [|repeat constructor]. apply Forall_forall. intros x Hx. apply repeat_spec in Hx. now subst. }
  exists it. split; [auto|]. rewrite H2. clear H1 H2 it.
  assert (Gen : forall k a, a <= c -> iter_run (unsorted_step data w) (a, 0) (repeat INext k ++ [ILen]) =
    Ok (map (fun i => OItem (if i <? c then match ef_get_rel e i with Ok o => o | _ => None end else None)) (range a (a + N.of_nat k)) ++ [OLen (n - N.min (a + N.of_nat k) c)])).
  { clear k. intros k. induction k as [|k IH]; intros a Ha.
    - cbn [repeat app iter_run unsorted_step bind]. rewrite range_nil by lia. cbn [map app]. do 3 f_equal. change (N.of_nat 0) with 0. clear - Ha. lia.
    - cbn [repeat app iter_run]. unfold unsorted_step at 1. fold c. rewrite N.add_0_r. rewrite (range_cons a) by lia. cbn [map app].
      destruct (N.ltb_spec a c) as [L|L].
      + cbn [bind]. rewrite IH by lia. cbn [bind]. rewrite C142_get. destruct (N.ltb_spec a n) as [_|]; [|lia]. rewrite (getN_ok 0) by auto.
        replace (a + 1 + N.of_nat k) with (a + N.of_nat (Datatypes.S k)) by lia. reflexivity.
      + cbn [bind]. assert (a = c) by lia. subst a. rewrite IH by lia. cbn [bind]. do 2 f_equal. f_equal; [|do 2 f_equal; lia].
        assert (Z : forall x y, c <= x -> map (fun i => OItem (if i <? c then match ef_get_rel e i with Ok o => o | _ => None end else None)) (range x (x + N.of_nat y)) = repeat (OItem None) y).
        { clear. intros x y. revert x. induction y as [|y IHy]; intros x Hx; [rewrite range_nil by lia; reflexivity|]. rewrite range_cons by lia. cbn [map repeat]. destruct (N.ltb_spec x c); [lia|]. f_equal.
          rewrite <- (IHy (x + 1)) by lia. f_equal. f_equal. lia. }
        rewrite Z by lia. replace (c + N.of_nat (Datatypes.S k)) with (c + 1 + N.of_nat k) by lia. rewrite Z by lia. reflexivity. }
  apply (Gen k 0). lia.
Qed.
End Any.

(** The marks of 30 and 7 cancel: of four elements two are yielded, the second of which is wrong; then the iterator ends, but claims
    that two more elements follow. From the back the low parts of the last elements are read. *)
Example C142_ex :
  unsorted_marks ex_back 4 = [1; 6] /\
  (let* it := ef_iter_new ex_backv in iter_run (ei_step_rel ex_backv) it [INext; INext; INext; ILen]) =
    Ok [OItem (Some 0); OItem (Some 78); OItem None; OLen 2] /\
  (let* it := ef_iter_new ex_backv in iter_run (ei_step_rel ex_backv) it [INextBack; INextBack; INextBack; ILen]) =
    Ok [OItem (Some 35); OItem (Some (2 ^ 64 - 25)); OItem None; OLen 2] /\
  (let* it := ef_iter_new ex_backv in iter_run (ei_step_rel ex_backv) it [INth 3]) = Panic.
Proof. vm_compute. repeat split. Qed.
