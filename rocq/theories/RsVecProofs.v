(** * Proofs about [RsVec]: construction, rank, access, equality. *)
From Verif Require Import Base Spec BaseFacts WordFacts BitVecModel BitVecProofs RsVecModel PdepProofs.

(** ** Counting in the data of a vector *)
Definition zbit (d : list N) (i : N) : bool := negb (bit_at d i).

Lemma cnt_word d w n : n <= 64 ->
  cnt (bit_at d) (64 * w + n) = cnt (bit_at d) (64 * w) + cnt (N.testbit (nthN 0 d w)) n.
Proof.
  intros Hn. rewrite cnt_add. f_equal. apply cnt_ext. intros i Hi. unfold bit_at.
  replace ((64 * w + i) / 64) with w by dlia. now replace ((64 * w + i) mod 64) with i by dlia.
Qed.
Lemma cnt_zword d w n : n <= 64 ->
  cnt (zbit d) (64 * w + n) = cnt (zbit d) (64 * w) + (n - cnt (N.testbit (nthN 0 d w)) n).
Proof.
  intros Hn. rewrite cnt_add. f_equal. rewrite <- cnt_negb. apply cnt_ext. intros i Hi.
  unfold zbit, bit_at.
  replace ((64 * w + i) / 64) with w by dlia. now replace ((64 * w + i) mod 64) with i by dlia.
Qed.
Lemma cnt_zbit d n : cnt (zbit d) n = n - cnt (bit_at d) n.
Proof. apply cnt_negb. Qed.
Lemma cnt_bit_zbit d n : cnt (bit_at d) n = n - cnt (zbit d) n.
Proof. rewrite cnt_zbit. pose proof (cnt_le (bit_at d) n). lia. Qed.

(** Zeros among the first [i] words, padding not counted; and the complementary count. *)
Definition zc (bv : bitvec) (i : N) : N := cnt (zbit (bdata bv)) (N.min (64 * i) (blen bv)).
Definition oc (bv : bitvec) (i : N) : N := 64 * i - zc bv i.

Lemma zc_step bv i : zc bv i <= zc bv (i + 1) <= zc bv i + 64.
Proof.
  unfold zc. split; [apply cnt_mono; lia|].
  etransitivity; [apply (cnt_diff_le _ (N.min (64 * i) (blen bv))); lia|]. lia.
Qed.
Lemma zc_le bv i : zc bv i <= 64 * i.
Proof. unfold zc. etransitivity; [apply cnt_le|]. lia. Qed.
Lemma oc_step bv i : oc bv i <= oc bv (i + 1) <= oc bv i + 64.
Proof. unfold oc. pose proof (zc_step bv i). pose proof (zc_le bv i). lia. Qed.
Lemma mono_step (Z : N -> N) : (forall i, Z i <= Z (i + 1) <= Z i + 64) ->
  forall i j, i <= j -> Z i <= Z j.
Proof.
  intros H i j. induction j as [|j IH] using N_ind1; intros L.
  - replace i with 0 by lia. lia.
  - destruct (N.eq_dec i (j + 1)) as [->|]; [lia|]. specialize (H j). specialize (IH ltac:(lia)). lia.
Qed.
Lemma zc_in bv i : 64 * i <= blen bv -> zc bv i = cnt (zbit (bdata bv)) (64 * i).
Proof. intros H. unfold zc. now rewrite N.min_l. Qed.
Lemma oc_in bv i : 64 * i <= blen bv -> oc bv i = cnt (bit_at (bdata bv)) (64 * i).
Proof. intros H. unfold oc. rewrite zc_in by auto. now rewrite cnt_bit_zbit. Qed.
Lemma zc_all bv : wf bv -> zc bv (lenN (bdata bv)) = cnt (zbit (bdata bv)) (blen bv).
Proof. intros [H _]. unfold zc. f_equal. rewrite H. dlia. Qed.

Lemma wf_in bv i : wf bv -> i < lenN (bdata bv) -> 64 * i < blen bv.
Proof. intros [H _] Hi. rewrite H in Hi. dlia. Qed.

(** ** The select block table *)
(** [g] is the table of one bit value and [Z] the count of that bit value before word [i]. *)
Definition sel_inv (Z g : N -> N) (i : N) : Prop :=
  g 0 = 0 /\
  (forall k, 1 <= k -> k <= Z i / 8192 ->
     exists w, w < i /\ g k = w / 128 /\ Z w < 8192 * k /\ 8192 * k <= Z (w + 1)) /\
  (forall k, Z i / 8192 < k -> g k = 0).

Lemma sel_inv_step Z g g' i : Z i <= Z (i + 1) <= Z i + 64 ->
  sel_inv Z g i ->
  (forall k, g' k = if (Z i / 8192 <? Z (i + 1) / 8192) && (k =? Z (i + 1) / 8192)
                    then i / 128 else g k) ->
  sel_inv Z g' (i + 1).
Proof.
  intros Hz (H0 & H1 & H2) Hg. repeat split.
  - rewrite Hg. destruct (N.ltb_spec (Z i / 8192) (Z (i + 1) / 8192)); cbn; auto.
    destruct (N.eqb_spec 0 (Z (i + 1) / 8192)); auto; lia.
  - intros k Hk1 Hk2. rewrite Hg.
    destruct (N.ltb_spec (Z i / 8192) (Z (i + 1) / 8192)); cbn [andb].
    + destruct (N.eqb_spec k (Z (i + 1) / 8192)) as [Ek|Ek].
      * exists i. repeat split; try lia; dlia.
      * destruct (H1 k Hk1) as (w & ? & ? & ? & ?); [dlia|]. exists w. repeat split; auto; lia.
    + destruct (H1 k Hk1) as (w & ? & ? & ? & ?); [lia|]. exists w. repeat split; auto; lia.
  - intros k Hk. rewrite Hg.
    destruct (N.ltb_spec (Z i / 8192) (Z (i + 1) / 8192)); cbn [andb].
    + destruct (N.eqb_spec k (Z (i + 1) / 8192)) as [Ek|Ek]; [lia|]. apply H2. lia.
    + apply H2. lia.
Qed.

Definition g0 (sel : list (N * N)) (k : N) : N := fst (nthN (0, 0) sel k).
Definition g1 (sel : list (N * N)) (k : N) : N := snd (nthN (0, 0) sel k).

Lemma set_idx0_ok sel k x : k < lenN sel ->
  exists sel', set_idx0 sel k x = Ok sel' /\ lenN sel' = lenN sel /\
    (forall j, g0 sel' j = if j =? k then x else g0 sel j) /\ (forall j, g1 sel' j = g1 sel j).
Proof.
  intros H. unfold set_idx0. rewrite (idx_ok (0, 0)) by auto. cbn [bind].
  rewrite set_idx_ok by auto. eexists. split; [reflexivity|]. split; [apply lenN_set_nth|].
  split; intros j; unfold g0, g1; rewrite nthN_set_nth by auto.
  - now destruct (N.eqb_spec j k).
  - now destruct (N.eqb_spec j k) as [->|].
Qed.
Lemma set_idx1_ok sel k x : k < lenN sel ->
  exists sel', set_idx1 sel k x = Ok sel' /\ lenN sel' = lenN sel /\
    (forall j, g1 sel' j = if j =? k then x else g1 sel j) /\ (forall j, g0 sel' j = g0 sel j).
Proof.
  intros H. unfold set_idx1. rewrite (idx_ok (0, 0)) by auto. cbn [bind].
  rewrite set_idx_ok by auto. eexists. split; [reflexivity|]. split; [apply lenN_set_nth|].
  split; intros j; unfold g0, g1; rewrite nthN_set_nth by auto.
  - now destruct (N.eqb_spec j k).
  - now destruct (N.eqb_spec j k) as [->|].
Qed.
Lemma g0_push sel x y j : g0 (sel ++ [(x, y)]) j = if j =? lenN sel then x else g0 sel j.
Proof.
  unfold g0. rewrite nthN_app. destruct (N.ltb_spec j (lenN sel)).
  - destruct (N.eqb_spec j (lenN sel)); [lia|auto].
  - rewrite nthN_cons. destruct (N.eqb_spec j (lenN sel)) as [->|].
    + now rewrite N.sub_diag.
    + destruct (N.eqb_spec (j - lenN sel) 0); [lia|]. rewrite !nthN_overflow; auto.
      cbn. lia.
Qed.
Lemma g1_push sel x y j : g1 (sel ++ [(x, y)]) j = if j =? lenN sel then y else g1 sel j.
Proof.
  unfold g1. rewrite nthN_app. destruct (N.ltb_spec j (lenN sel)).
  - destruct (N.eqb_spec j (lenN sel)); [lia|auto].
  - rewrite nthN_cons. destruct (N.eqb_spec j (lenN sel)) as [->|].
    + now rewrite N.sub_diag.
    + destruct (N.eqb_spec (j - lenN sel) 0); [lia|]. rewrite !nthN_overflow; auto.
      cbn. lia.
Qed.
Lemma g0_over sel j : lenN sel <= j -> g0 sel j = 0.
Proof. intros. unfold g0. now rewrite nthN_overflow. Qed.
Lemma g1_over sel j : lenN sel <= j -> g1 sel j = 0.
Proof. intros. unfold g1. now rewrite nthN_overflow. Qed.

(** ** The construction loop *)
Definition rs_inv (bv : bitvec) (i : N) (st : rs_st) : Prop :=
  s_total st + s_current st = zc bv i /\
  s_total st = zc bv (128 * ((i + 127) / 128 - 1)) /\
  lenN (s_supers st) = (i + 127) / 128 /\
  (forall s, s < (i + 127) / 128 -> nthN 0 (s_supers st) s = zc bv (128 * s)) /\
  lenN (s_blocks st) = (i + 7) / 8 /\
  (forall b, b < (i + 7) / 8 -> nthN 0 (s_blocks st) b = zc bv (8 * b) - zc bv (128 * (b / 16))) /\
  lenN (s_sel st) = N.max (zc bv i / 8192) (oc bv i / 8192) + 1 /\
  sel_inv (zc bv) (g0 (s_sel st)) i /\
  sel_inv (oc bv) (g1 (s_sel st)) i /\
  s_last0 st = zc bv i / 8192 /\ s_last1 st = oc bv i / 8192.

Lemma rs_new_zeros bv i : wf bv -> i < lenN (bdata bv) ->
  (if (i =? lenN (bdata bv) - 1) && negb (blen bv mod 64 =? 0)
   then sub (count_zeros64 (nthN 0 (bdata bv) i))
          (count_zeros64 (N.lor (nthN 0 (bdata bv) i) (lowmask (blen bv mod 64))))
   else Ok (count_zeros64 (nthN 0 (bdata bv) i))) = Ok (zc bv (i + 1) - zc bv i).
Proof.
  intros Hwf Hi. pose proof (wf_in bv i Hwf Hi) as Hin. destruct Hwf as [Hl Hw].
  set (w := nthN 0 (bdata bv) i).
  assert (Hwu : w < U64) by now apply words_nth.
  rewrite (zc_in bv i) by lia.
  destruct (N.eqb_spec i (lenN (bdata bv) - 1)) as [Ei|Ei]; cbn [andb].
  - destruct (N.eqb_spec (blen bv mod 64) 0) as [Em|Em]; cbn [negb].
    + f_equal. unfold zc. replace (N.min (64 * (i + 1)) (blen bv)) with (64 * i + 64) by dlia.
      rewrite cnt_zword by lia. unfold count_zeros64. rewrite popcount64 by auto. fold w. lia.
    + set (m := blen bv mod 64) in *. assert (m < 64) by (apply N.mod_lt; lia).
      unfold zc. replace (N.min (64 * (i + 1)) (blen bv)) with (64 * i + m) by dlia.
      rewrite cnt_zword by lia. fold w. unfold count_zeros64.
      rewrite lowmask_ones by auto.
      assert (N.lor w (N.ones m) < U64).
      { apply lor_lt; auto. rewrite U64_pow. apply testbit_lt. intros j Hj. rewrite ones_spec.
        destruct (N.ltb_spec j m); auto; lia. }
      rewrite !popcount64 by auto.
      assert (E1 : cnt (N.testbit (N.lor w (N.ones m))) 64 = m + cnt (fun j => N.testbit w (m + j)) (64 - m)).
      { replace 64 with (m + (64 - m)) at 1 by lia. rewrite cnt_add. f_equal.
        - rewrite (cnt_ext _ (fun _ => true)); [apply cnt_true|].
          intros j Hj. rewrite N.lor_spec, ones_spec. destruct (N.ltb_spec j m); [|lia].
          apply orb_true_r.
        - apply cnt_ext. intros j Hj. rewrite N.lor_spec, ones_spec.
          destruct (N.ltb_spec (m + j) m); [lia|]. apply orb_false_r. }
      assert (E2 : cnt (N.testbit w) 64 = cnt (N.testbit w) m + cnt (fun j => N.testbit w (m + j)) (64 - m)).
      { replace 64 with (m + (64 - m)) at 1 by lia. now rewrite cnt_add. }
      pose proof (cnt_le (N.testbit w) m). pose proof (cnt_le (fun j => N.testbit w (m + j)) (64 - m)).
      rewrite sub_ok by lia. f_equal. lia.
  - f_equal. unfold zc. replace (N.min (64 * (i + 1)) (blen bv)) with (64 * i + 64).
    + rewrite cnt_zword by lia. unfold count_zeros64. rewrite popcount64 by auto. fold w. lia.
    + rewrite Hl in *. dlia.
Qed.

Lemma div_step a b m : 0 < m -> a <= b -> b <= a + m -> b / m = a / m \/ b / m = a / m + 1.
Proof.
  intros Hm H1 H2. pose proof (N.div_le_mono a b m ltac:(lia) H1) as H3. pose proof (N.div_le_mono b (a + 1 * m) m ltac:(lia) ltac:(lia)) as H4.
  rewrite N.div_add in H4 by lia. lia.
Qed.
Lemma rs_step_ok bv i st : wf bv -> i < lenN (bdata bv) -> rs_inv bv i st ->
  exists st', rs_step bv st i = Ok st' /\ rs_inv bv (i + 1) st'.
Proof.
  intros Hwf Hi (I1 & I2 & I3 & I4 & I5 & I6 & I7 & I8 & I9 & I10 & I11).
  unfold rs_step. rewrite (idx_ok 0) by auto. cbn [bind].
  rewrite sub_ok by lia. cbn [bind]. rewrite rs_new_zeros by auto. cbn [bind].
  set (ns := (i mod 8 =? 0) && (i mod 128 =? 0)).
  assert (Ens : ns = (i mod 128 =? 0)).
  { unfold ns. destruct (N.eqb_spec (i mod 8) 0), (N.eqb_spec (i mod 128) 0); auto. exfalso. dlia. }
  set (total := if ns then s_total st + s_current st else s_total st).
  set (current := if ns then 0 else s_current st).
  set (supers := if ns then s_supers st ++ [total] else s_supers st).
  set (blocks := if i mod 8 =? 0 then s_blocks st ++ [current] else s_blocks st).
  assert (Etc : total + current = zc bv i).
  { unfold total, current. destruct ns; lia. }
  assert (Etot : total = zc bv (128 * ((i + 1 + 127) / 128 - 1))).
  { unfold total. rewrite Ens. destruct (N.eqb_spec (i mod 128) 0).
    - rewrite I1. f_equal. dlia.
    - rewrite I2. f_equal. dlia. }
  assert (Esl : lenN supers = (i + 1 + 127) / 128).
  { unfold supers. rewrite Ens. destruct (N.eqb_spec (i mod 128) 0).
    - rewrite lenN_app, I3. cbn. dlia.
    - rewrite I3. dlia. }
  assert (Esv : forall s, s < (i + 1 + 127) / 128 -> nthN 0 supers s = zc bv (128 * s)).
  { intros s Hs. unfold supers. rewrite Ens in *. destruct (N.eqb_spec (i mod 128) 0).
    - rewrite nthN_app, I3. destruct (N.ltb_spec s ((i + 127) / 128)); [now apply I4|].
      rewrite nthN_cons. destruct (N.eqb_spec (s - (i + 127) / 128) 0); [|exfalso; dlia].
      rewrite Etot. f_equal. dlia.
    - apply I4. dlia. }
  assert (Ebl : lenN blocks = (i + 1 + 7) / 8).
  { unfold blocks. destruct (N.eqb_spec (i mod 8) 0).
    - rewrite lenN_app, I5. cbn. dlia.
    - rewrite I5. dlia. }
  assert (Ebv : forall b, b < (i + 1 + 7) / 8 ->
     nthN 0 blocks b = zc bv (8 * b) - zc bv (128 * (b / 16))).
  { intros b Hb. unfold blocks. destruct (N.eqb_spec (i mod 8) 0).
    - rewrite nthN_app, I5. destruct (N.ltb_spec b ((i + 7) / 8)); [now apply I6|].
      assert (Eb : b = (i + 7) / 8) by (clear - H Hb; dlia). rewrite Eb, nthN_cons, N.sub_diag. cbn [N.eqb].
      replace current with (zc bv i - total) by lia. rewrite Etot.
      clear - e. f_equal; f_equal; dlia.
    - apply I6. dlia. }
  replace (total + current + (zc bv (i + 1) - zc bv i)) with (zc bv (i + 1))
    by (pose proof (zc_step bv i); lia).
  rewrite sub_ok by (rewrite Esl; clear; dlia). cbn [bind].
  replace (lenN supers - 1) with (i / 128) by (rewrite Esl; clear; dlia).
  rewrite Etc. change SELECT_BLOCK_SIZE with 8192.
  pose proof (zc_step bv i) as Zs. pose proof (oc_step bv i) as Os.
  pose proof (zc_le bv i) as Zl. pose proof (zc_le bv (i + 1)) as Zl'.
  pose proof (div_step (zc bv i) (zc bv (i + 1)) 8192 ltac:(lia) ltac:(lia) ltac:(lia)) as Dz.
  pose proof (div_step (oc bv i) (oc bv (i + 1)) 8192 ltac:(lia) ltac:(lia) ltac:(lia)) as Do.
  match goal with |- context [bind (if ?c then ?a else ?b) _] =>
    set (step0 := if c then a else b) end.
  assert (S0 : exists sel', step0 = Ok (sel', zc bv (i + 1) / 8192) /\
     lenN sel' = N.max (zc bv (i + 1) / 8192) (oc bv i / 8192) + 1 /\
     sel_inv (zc bv) (g0 sel') (i + 1) /\ (forall k, g1 sel' k = g1 (s_sel st) k)).
  { unfold step0. clear step0. destruct (N.ltb_spec (zc bv i / 8192) (zc bv (i + 1) / 8192)) as [L|L].
    - destruct (N.eqb_spec (zc bv (i + 1) / 8192) (lenN (s_sel st))) as [E|E].
      + cbn [bind]. eexists. split; [f_equal; f_equal; rewrite I10; clear - Dz L; lia|].
        split; [rewrite lenN_app; change (lenN [_]) with 1; clear - I7 E Dz L; lia|]. split.
        * apply (sel_inv_step _ (g0 (s_sel st)) _ i); auto. intros k. rewrite g0_push, <- E.
          destruct (N.ltb_spec (zc bv i / 8192) (zc bv (i + 1) / 8192)); [|lia]. reflexivity.
        * intros k. rewrite g1_push. destruct (N.eqb_spec k (lenN (s_sel st))); auto.
          rewrite g1_over; auto; lia.
      + destruct (set_idx0_ok (s_sel st) (zc bv (i + 1) / 8192) (i / 128)) as (sel' & E1 & E2 & E3 & E4); [clear - I7 E Dz L; lia|].
        rewrite E1. cbn [bind]. exists sel'. split; [f_equal; f_equal; rewrite I10; clear - Dz L; lia|].
        split; [clear - I7 E E2 Dz L; lia|]. split; auto.
        apply (sel_inv_step _ (g0 (s_sel st)) _ i); auto. intros k. rewrite E3.
        destruct (N.ltb_spec (zc bv i / 8192) (zc bv (i + 1) / 8192)); [|lia]. reflexivity.
    - eexists. split; [f_equal; f_equal; rewrite I10; clear - Dz L; lia|]. split; [clear - I7 Dz L; lia|]. split; auto.
      apply (sel_inv_step _ (g0 (s_sel st)) _ i); auto. intros k.
      destruct (N.ltb_spec (zc bv i / 8192) (zc bv (i + 1) / 8192)); [lia|]. reflexivity. }
  destruct S0 as (sel' & E0 & L0 & V0 & W0). rewrite E0. clear step0 E0. cbn [bind].
  rewrite sub_ok by lia. cbn [bind]. rewrite sub_ok by lia. cbn [bind]. rewrite sub_ok by lia. cbn [bind].
  replace ((i + 1) * 64 - zc bv (i + 1)) with (oc bv (i + 1)) by (unfold oc; clear; lia).
  replace (i * 64 - total - current) with (oc bv i) by (unfold oc; clear - Etc; lia).
  match goal with |- context [bind (if ?c then ?a else ?b) _] =>
    set (step1 := if c then a else b) end.
  assert (S1 : exists sel'', step1 = Ok (sel'', oc bv (i + 1) / 8192) /\
     lenN sel'' = N.max (zc bv (i + 1) / 8192) (oc bv (i + 1) / 8192) + 1 /\
     sel_inv (oc bv) (g1 sel'') (i + 1) /\ (forall k, g0 sel'' k = g0 sel' k)).
  { assert (I9' : sel_inv (oc bv) (g1 sel') i).
    { destruct I9 as (A & B & C). repeat split.
      - now rewrite W0.
      - intros k ? ?. rewrite W0. auto.
      - intros k ?. rewrite W0. auto. }
    unfold step1. clear step1. destruct (N.ltb_spec (oc bv i / 8192) (oc bv (i + 1) / 8192)) as [L|L].
    - destruct (N.eqb_spec (oc bv (i + 1) / 8192) (lenN sel')) as [E|E].
      + cbn [bind]. eexists. split; [f_equal; f_equal; rewrite I11; clear - Do L; lia|].
        split; [rewrite lenN_app; change (lenN [_]) with 1; clear - L0 E Do L; lia|]. split.
        * apply (sel_inv_step _ (g1 sel') _ i); auto. intros k. rewrite g1_push, <- E.
          destruct (N.ltb_spec (oc bv i / 8192) (oc bv (i + 1) / 8192)); [|lia]. reflexivity.
        * intros k. rewrite g0_push. destruct (N.eqb_spec k (lenN sel')); auto.
          rewrite g0_over; auto; lia.
      + destruct (set_idx1_ok sel' (oc bv (i + 1) / 8192) (i / 128)) as (sel'' & E1 & E2 & E3 & E4); [clear - L0 E Do L; lia|].
        rewrite E1. cbn [bind]. exists sel''. split; [f_equal; f_equal; rewrite I11; clear - Do L; lia|].
        split; [clear - L0 E E2 Do L; lia|]. split; auto.
        apply (sel_inv_step _ (g1 sel') _ i); auto. intros k. rewrite E3.
        destruct (N.ltb_spec (oc bv i / 8192) (oc bv (i + 1) / 8192)); [|lia]. reflexivity.
    - eexists. split; [f_equal; f_equal; rewrite I11; clear - Do L; lia|]. split; [clear - L0 Do L; lia|]. split; auto.
      apply (sel_inv_step _ (g1 sel') _ i); auto. intros k.
      destruct (N.ltb_spec (oc bv i / 8192) (oc bv (i + 1) / 8192)); [lia|]. reflexivity. }
  destruct S1 as (sel'' & E1 & L1 & V1 & W1). rewrite E1. clear step1 E1. cbn [bind].
  eexists. split; [reflexivity|]. unfold rs_inv. cbn [s_total s_current s_supers s_blocks s_sel s_last0 s_last1].
  repeat (split; [solve [auto|lia]|]). split; [|auto].
  destruct V0 as (A & B & C). repeat split.
  - now rewrite W1.
  - intros k ? ?. rewrite W1. auto.
  - intros k ?. rewrite W1. auto.
Qed.

(** ** The finished structure *)
Record rs_good (bv : bitvec) (rs : rsvec) : Prop := {
  good_data : rdata rs = bdata bv;
  good_len : rlen rs = blen bv;
  good_supers_len : lenN (rsupers rs) = (lenN (bdata bv) + 127) / 128;
  good_supers : forall s, s < lenN (rsupers rs) ->
    nthN 0 (rsupers rs) s = cnt (zbit (bdata bv)) (8192 * s);
  good_blocks_len : lenN (rblocks rs) = (lenN (bdata bv) + 7) / 8;
  good_blocks : forall b, b < lenN (rblocks rs) ->
    nthN 0 (rblocks rs) b =
    cnt (zbit (bdata bv)) (512 * b) - cnt (zbit (bdata bv)) (8192 * (b / 16));
  good_rank0 : rrank0 rs = cnt (zbit (bdata bv)) (blen bv);
  good_rank1 : rrank1 rs = cnt (bit_at (bdata bv)) (blen bv);
  good_sel0 : forall r, r < cnt (zbit (bdata bv)) (blen bv) ->
    r / 8192 + 1 < lenN (rsel rs) /\
    g0 (rsel rs) (r / 8192) <= g0 (rsel rs) (r / 8192 + 1) /\
    g0 (rsel rs) (r / 8192 + 1) < lenN (rsupers rs) /\
    cnt (zbit (bdata bv)) (8192 * g0 (rsel rs) (r / 8192)) <= r;
  good_sel1 : forall r, r < cnt (bit_at (bdata bv)) (blen bv) ->
    r / 8192 + 1 < lenN (rsel rs) /\
    g1 (rsel rs) (r / 8192) <= g1 (rsel rs) (r / 8192 + 1) /\
    g1 (rsel rs) (r / 8192 + 1) < lenN (rsupers rs) /\
    cnt (bit_at (bdata bv)) (8192 * g1 (rsel rs) (r / 8192)) <= r;
  good_sel_len : lenN (rsel rs) =
    N.max (rrank0 rs / 8192) ((64 * lenN (bdata bv) - rrank0 rs) / 8192) + 2;
  (* the samples, and the last sample repeated *)
  good_samp0 : forall k, 1 <= k -> k <= zc bv (lenN (bdata bv)) / 8192 -> exists w, w < lenN (bdata bv) /\
    g0 (rsel rs) k = w / 128 /\ zc bv w < 8192 * k /\ 8192 * k <= zc bv (w + 1);
  good_samp1 : forall k, 1 <= k -> k <= oc bv (lenN (bdata bv)) / 8192 -> exists w, w < lenN (bdata bv) /\
    g1 (rsel rs) k = w / 128 /\ oc bv w < 8192 * k /\ 8192 * k <= oc bv (w + 1);
  good_first : g0 (rsel rs) 0 = 0 /\ g1 (rsel rs) 0 = 0;
  good_dummy0 : g0 (rsel rs) (zc bv (lenN (bdata bv)) / 8192 + 1) = g0 (rsel rs) (zc bv (lenN (bdata bv)) / 8192);
  good_dummy1 : g1 (rsel rs) (oc bv (lenN (bdata bv)) / 8192 + 1) = g1 (rsel rs) (oc bv (lenN (bdata bv)) / 8192)
}.

Lemma rs_dummies_ok Z0 Z1 sel n : 
  sel_inv Z0 (g0 sel) n -> sel_inv Z1 (g1 sel) n ->
  lenN sel = N.max (Z0 n / 8192) (Z1 n / 8192) + 1 ->
  exists sel', rs_dummies sel (Z0 n / 8192) (Z1 n / 8192) = Ok sel' /\
    lenN sel' = N.max (Z0 n / 8192) (Z1 n / 8192) + 2 /\
    (forall k, g0 sel' k = if k =? Z0 n / 8192 + 1 then g0 sel (Z0 n / 8192) else g0 sel k) /\
    (forall k, g1 sel' k = if k =? Z1 n / 8192 + 1 then g1 sel (Z1 n / 8192) else g1 sel k).
Proof.
  intros (_ & _ & S0) (_ & _ & S1) Hl. unfold rs_dummies.
  set (k0 := Z0 n / 8192) in *. set (k1 := Z1 n / 8192) in *.
  rewrite (idx_ok (0, 0)) by lia. cbn [bind]. rewrite sub_ok by lia. cbn [bind].
  fold (g0 sel k0).
  match goal with |- context [bind (if ?c then ?a else ?b) _] =>
    set (step0 := if c then a else b) end.
  assert (D0 : exists sel', step0 = Ok sel' /\ N.max (k0 + 2) (k1 + 1) = lenN sel' /\
    (forall k, g0 sel' k = if k =? k0 + 1 then g0 sel k0 else g0 sel k) /\
    (forall k, g1 sel' k = g1 sel k)).
  { unfold step0. destruct (N.eqb_spec k0 (lenN sel - 1)).
    - eexists. split; [reflexivity|]. split; [rewrite lenN_app; cbn; lia|]. split; intros k.
      + rewrite g0_push. now replace (lenN sel) with (k0 + 1) by lia.
      + rewrite g1_push. destruct (N.eqb_spec k (lenN sel)); auto. rewrite g1_over; auto; lia.
    - rewrite (idx_ok (0, 0)) by lia. cbn [bind]. fold (g0 sel (k0 + 1)). rewrite S0 by lia.
      cbn [assert N.eqb bind].
      destruct (set_idx0_ok sel (k0 + 1) (g0 sel k0)) as (sel' & E1 & E2 & E3 & E4); [lia|].
      exists sel'. repeat split; auto. lia. }
  destruct D0 as (sel' & E0 & L0 & G0 & H0). rewrite E0. cbn [bind]. clear step0 E0.
  rewrite (idx_ok (0, 0)) by lia. cbn [bind]. rewrite sub_ok by lia. cbn [bind].
  fold (g1 sel' k1). rewrite H0.
  destruct (N.eqb_spec k1 (lenN sel' - 1)).
  - eexists. split; [reflexivity|]. rewrite lenN_app.
    replace (lenN [(0, g1 sel k1)]) with 1 by reflexivity. split; [lia|]. split; intros k.
    + rewrite g0_push, G0. destruct (N.eqb_spec k (lenN sel')); auto.
      destruct (N.eqb_spec k (k0 + 1)); [lia|]. rewrite S0; auto; lia.
    + rewrite g1_push, H0. now replace (lenN sel') with (k1 + 1) by lia.
  - rewrite (idx_ok (0, 0)) by lia. cbn [bind]. fold (g1 sel' (k1 + 1)). rewrite H0, S1 by lia.
    cbn [assert N.eqb bind].
    destruct (set_idx1_ok sel' (k1 + 1) (g1 sel k1)) as (sel'' & E1 & E2 & E3 & E4); [lia|].
    exists sel''. split; auto. split; [lia|]. split; intros k.
    + now rewrite E4.
    + rewrite E3. now rewrite H0.
Qed.

Lemma sel_final Z g g' n r : (forall i, Z i <= Z (i + 1) <= Z i + 64) -> Z 0 = 0 ->
  sel_inv Z g n ->
  (forall k, g' k = if k =? Z n / 8192 + 1 then g (Z n / 8192) else g k) ->
  r < Z n ->
  g' (r / 8192) <= g' (r / 8192 + 1) /\ g' (r / 8192 + 1) < (n + 127) / 128 /\
  128 * g' (r / 8192) < n /\ Z (128 * g' (r / 8192)) <= r.
Proof.
  intros HZ HZ0 (A & B & C) Hg Hr. pose proof (mono_step Z HZ) as Hm.
  assert (Hn : 0 < n) by (destruct n; lia).
  set (k := r / 8192). assert (Hk : k <= Z n / 8192) by (unfold k; dlia).
  assert (Gk : g' k = g k).
  { rewrite Hg. destruct (N.eqb_spec k (Z n / 8192 + 1)); auto. lia. }
  rewrite Gk.
  assert (Hlow : forall j, j <= Z n / 8192 -> exists w, w < n /\ g j = w / 128 /\ (Z w < 8192 * j \/ j = 0 /\ w = 0)
      /\ 8192 * j <= Z (w + 1)).
  { intros j Hj. destruct (N.eq_dec j 0) as [->|].
    - exists 0. rewrite A. repeat split; auto. lia.
    - destruct (B j) as (w & ? & ? & ? & ?); [lia|auto|]. exists w. auto. }
  destruct (Hlow k Hk) as (w & Hw & Ew & Lw & Uw).
  assert (Zw : Z w <= r).
  { destruct Lw as [?|[_ ->]]; [unfold k in *; dlia|rewrite HZ0; lia]. }
  assert (Hmono : g k <= g' (k + 1) /\ g' (k + 1) < (n + 127) / 128).
  { rewrite Hg. destruct (N.eqb_spec (k + 1) (Z n / 8192 + 1)) as [E|E].
    - replace (Z n / 8192) with k by lia. split; [lia|]. rewrite Ew. dlia.
    - destruct (Hlow (k + 1)) as (w' & Hw' & Ew' & Lw' & Uw'); [lia|].
      rewrite Ew, Ew'.
      assert (w <= w').
      { destruct (N.le_gt_cases w w') as [|L]; auto. specialize (Hm (w' + 1) w). 
        destruct Lw as [Lw|[? ->]]; lia. }
      split; [apply N.div_le_mono; lia|dlia]. }
  destruct Hmono. repeat split; auto.
  - rewrite Ew. dlia.
  - etransitivity; [|apply Zw]. apply Hm. rewrite Ew. dlia.
Qed.

Lemma rs_from_bit_vec_ok bv : wf bv -> exists rs, rs_from_bit_vec bv = Ok rs /\ rs_good bv rs.
Proof.
  intros Hwf. unfold rs_from_bit_vec. set (n := lenN (bdata bv)).
  destruct (forM_range_inv (rs_inv bv) 0 n (mkst [] [] [(0, 0)] 0 0 0 0) (rs_step bv))
    as (st & Est & (I1 & I2 & I3 & I4 & I5 & I6 & I7 & I8 & I9 & I10 & I11)).
  - lia.
  - assert (Hz : zc bv 0 = 0) by (unfold zc; rewrite N.min_l by lia; apply cnt_0).
    assert (Ho : oc bv 0 = 0) by (unfold oc; lia).
    unfold rs_inv. cbn [s_total s_current s_supers s_blocks s_sel s_last0 s_last1].
    change ((0 + 127) / 128) with 0. change ((0 + 7) / 8) with 0. change (128 * (0 - 1)) with 0.
    rewrite Hz, Ho. change (0 / 8192) with 0.
    repeat (split; [solve [auto|lia]|]).
    assert (HG : forall k, g0 [(0, 0)] k = 0 /\ g1 [(0, 0)] k = 0).
    { intros k. unfold g0, g1. rewrite nthN_cons. destruct (k =? 0); auto.
      rewrite nthN_overflow; auto. cbn. lia. }
    split; [|split; [|auto]]; (split; [apply HG|]); split; intros k; try (intros; apply HG);
      rewrite ?Hz, ?Ho; change (0 / 8192) with 0; lia.
  - intros i st _ Hi HI. now apply rs_step_ok.
  - rewrite Est. cbn [bind].
    destruct (rs_dummies_ok (zc bv) (oc bv) (s_sel st) n) as (sel & Es & L & G0 & G1); auto.
    assert (L0 : zc bv n / 8192 + 1 < lenN sel) by lia. assert (L1 : oc bv n / 8192 + 1 < lenN sel) by lia.
    rewrite I10, I11, Es. cbn [bind]. rewrite I1.
    assert (Hzn : zc bv n = cnt (zbit (bdata bv)) (blen bv)) by (now apply zc_all).
    rewrite Hzn. pose proof (cnt_le (zbit (bdata bv)) (blen bv)) as Hzl.
    rewrite sub_ok by auto. cbn [bind]. eexists. split; [reflexivity|].
    assert (Hin : forall w, w < n -> 64 * w < blen bv) by (intros; now apply wf_in).
    split; cbn [rdata rlen rsupers rblocks rrank0 rrank1 rsel]; auto.
    + intros s Hs. rewrite I3 in Hs. rewrite I4 by auto.
      specialize (Hin (128 * s)). rewrite zc_in; [f_equal; lia|]. assert (128 * s < n) by dlia. lia.
    + intros b Hb. rewrite I5 in Hb. rewrite I6 by auto.
      assert (8 * b < n) by dlia. assert (128 * (b / 16) < n) by dlia.
      pose proof (Hin (8 * b)). pose proof (Hin (128 * (b / 16))).
      rewrite !zc_in by lia. f_equal; f_equal; lia.
    + now rewrite cnt_bit_zbit.
    + intros r Hr. rewrite <- Hzn in Hr. split; [dlia|].
      destruct (sel_final (zc bv) (g0 (s_sel st)) (g0 sel) n r) as (A & B & C & D); auto.
      * apply zc_step.
      * unfold zc. rewrite N.min_l by lia. apply cnt_0.
      * rewrite I3. split; auto. split; auto. etransitivity; [|apply D].
        specialize (Hin _ C). rewrite zc_in by lia. apply N.eq_le_incl. f_equal. lia.
    + intros r Hr. assert (Hon : r < oc bv n).
      { unfold oc. rewrite Hzn. rewrite cnt_bit_zbit in Hr.
        assert (blen bv <= 64 * n) by (destruct Hwf as [E _]; unfold n; rewrite E; dlia). lia. }
      split; [dlia|].
      destruct (sel_final (oc bv) (g1 (s_sel st)) (g1 sel) n r) as (A & B & C & D); auto.
      * apply oc_step.
      * rewrite I3. split; auto. split; auto. etransitivity; [|apply D].
        specialize (Hin _ C). rewrite oc_in by lia. apply N.eq_le_incl. f_equal. lia.
    + rewrite L. unfold oc. now rewrite Hzn.
    + fold n. intros k K1 K2. destruct I8 as (_ & B & _). destruct (B k K1 K2) as (w & W). exists w.
      rewrite G0. destruct (N.eqb_spec k (zc bv n / 8192 + 1)); [lia|]. exact W.
    + fold n. intros k K1 K2. destruct I9 as (_ & B & _). destruct (B k K1 K2) as (w & W). exists w.
      rewrite G1. destruct (N.eqb_spec k (oc bv n / 8192 + 1)); [lia|]. exact W.
    + rewrite G0, G1. destruct (N.eqb_spec 0 (zc bv n / 8192 + 1)), (N.eqb_spec 0 (oc bv n / 8192 + 1)); [lia|lia|lia|]. split; [apply (proj1 I8)|apply (proj1 I9)].
    + fold n. rewrite !G0, N.eqb_refl. destruct (N.eqb_spec (zc bv n / 8192) (zc bv n / 8192 + 1)); [lia|reflexivity].
    + fold n. rewrite !G1, N.eqb_refl. destruct (N.eqb_spec (oc bv n / 8192) (oc bv n / 8192 + 1)); [lia|reflexivity].
Qed.

(** ** rank *)
Lemma fold_add_acc (f : N -> N) l a : fold_left (fun acc w => acc + f w) l a = a + sumN (map f l).
Proof.
  revert a. induction l as [|x l IH]; intros a; cbn [fold_left map]; [cbn; lia|].
  rewrite IH. unfold sumN. cbn [fold_right]. lia.
Qed.

Lemma sum_slice_words (zero : bool) d a m : words d -> a + m <= lenN d ->
  cnt (if zero then zbit d else bit_at d) (64 * a) +
  sumN (map (fun w => if zero then count_zeros64 w else popcount w) (sliceN a m d)) =
  cnt (if zero then zbit d else bit_at d) (64 * (a + m)).
Proof.
  intros Hw. induction m as [|m IH] using N_ind1; intros Hm.
  - rewrite N.add_0_r. change (sliceN a 0 d) with (@nil N). cbn. now rewrite !N.add_0_r.
  - assert (E : sliceN a (m + 1) d = sliceN a m d ++ [nthN 0 d (a + m)]).
    { unfold sliceN. rewrite (takeN_succ 0) by (rewrite lenN_dropN; lia). now rewrite nthN_dropN. }
    rewrite E, map_app, sumN_app. unfold sumN at 2. cbn [map fold_right]. rewrite N.add_0_r.
    rewrite N.add_assoc, IH by lia. replace (64 * (a + (m + 1))) with (64 * (a + m) + 64) by lia.
    destruct zero.
    + rewrite cnt_zword by lia. unfold count_zeros64. rewrite popcount64 by now apply words_nth. lia.
    + rewrite cnt_word by lia. rewrite popcount64 by now apply words_nth. lia.
Qed.

Lemma rs_rank_ok bv rs zero pos : wf bv -> rs_good bv rs ->
  rs_rank rs zero pos = Ok (cnt (if zero then zbit (bdata bv) else bit_at (bdata bv)) (N.min pos (blen bv))).
Proof.
  intros Hwf G. unfold rs_rank. rewrite (good_len _ _ G).
  destruct (N.leb_spec (blen bv) pos) as [L|L].
  { rewrite N.min_r by auto. destruct zero; f_equal; [apply (good_rank0 _ _ G)|apply (good_rank1 _ _ G)]. }
  rewrite N.min_l by lia.
  assert (Hn : pos / 64 < lenN (bdata bv)) by (destruct Hwf as [E _]; rewrite E; dlia).
  change SUPER_BLOCK_SIZE with 8192. change BLOCK_SIZE with 512. change (8192 / 512) with 16.
  assert (Hs : pos / 8192 < lenN (rsupers rs)) by (rewrite (good_supers_len _ _ G); dlia).
  assert (Hb : pos / 512 < lenN (rblocks rs)) by (rewrite (good_blocks_len _ _ G); dlia).
  rewrite (idx_ok 0) by auto. cbn [bind]. rewrite (good_supers _ _ G) by auto.
  set (d := bdata bv) in *.
  rewrite !(idx_ok 0 (rblocks rs)) by auto. rewrite (good_data _ _ G). fold d.
  replace (pos / 512 * 512 / 64) with (8 * (pos / 512)) by dlia.
  rewrite slice_chk_ok by (dlia).
  rewrite !(idx_ok 0 d) by auto. cbn [bind].
  rewrite (good_blocks _ _ G) by auto. fold d.
  replace (pos / 512 / 16) with (pos / 8192) by dlia.
  assert (Hw : words d) by apply Hwf.
  assert (Hwd : nthN 0 d (pos / 64) < U64) by now apply words_nth.
  pose proof (sum_slice_words zero d (8 * (pos / 512)) (pos / 64 - 8 * (pos / 512)) Hw) as Hsum.
  replace (8 * (pos / 512) + (pos / 64 - 8 * (pos / 512))) with (pos / 64) in Hsum by dlia.
  specialize (Hsum ltac:(lia)).
  assert (Ep : pos = 64 * (pos / 64) + pos mod 64) by dlia.
  assert (Hpm : pos mod 64 < 64) by (apply N.mod_lt; lia).
  pose proof (cnt_mono (zbit d) (8192 * (pos / 8192)) (512 * (pos / 512)) ltac:(dlia)) as M1.
  pose proof (cnt_le (zbit d) (8192 * (pos / 8192))) as M2.
  replace (64 * (8 * (pos / 512))) with (512 * (pos / 512)) in Hsum by lia.
  destruct zero.
  - change (fun w => count_zeros64 w) with count_zeros64 in Hsum.
    cbn [bind]. rewrite fold_add_acc, lowmask_ones by auto.
    rewrite popcount_land_low by (auto using not64_lt; lia).
    assert (Ef : cnt (zbit d) pos = cnt (zbit d) (64 * (pos / 64)) +
      (pos mod 64 - cnt (N.testbit (nthN 0 d (pos / 64))) (pos mod 64))).
    { rewrite Ep at 1. apply cnt_zword. lia. }
    assert (E : cnt (N.testbit (not64 (nthN 0 d (pos / 64)))) (pos mod 64) =
      pos mod 64 - cnt (N.testbit (nthN 0 d (pos / 64))) (pos mod 64)).
    { rewrite <- cnt_negb. apply cnt_ext. intros i Hi. rewrite not64_spec.
      destruct (N.ltb_spec i 64); [|lia]. now destruct (N.testbit _ i). }
    rewrite E, Ef. f_equal. rewrite <- Hsum. lia.
  - pose proof (cnt_diff_le (zbit d) (8192 * (pos / 8192)) (512 * (pos / 512)) ltac:(dlia)) as M3.
    rewrite sub_ok by lia. cbn [bind].
    rewrite sub_ok by dlia. cbn [bind]. rewrite fold_add_acc, lowmask_ones by auto.
    rewrite popcount_land_low by (auto; lia).
    assert (Ef : cnt (bit_at d) pos = cnt (bit_at d) (64 * (pos / 64)) +
      cnt (N.testbit (nthN 0 d (pos / 64))) (pos mod 64)).
    { rewrite Ep at 1. apply cnt_word. lia. }
    rewrite Ef, <- Hsum. f_equal. f_equal. f_equal.
    rewrite (cnt_bit_zbit d). dlia.
Qed.
