(** * Property C141: Elias-Fano iterators in a release build. *)
From Verif Require Import Base Spec BaseFacts WordFacts IterSpec IterFacts IterLazy BitVecModel BitVecProofs RsVecModel RsVecProofs RsIterModel RsIterProofs
  GenIterModel GenIterProofs EFModel EFProofs EFIterProofs PropsEF ReleaseModel PropsRelease EFReleaseModel PropsEFRelease EFIterReleaseModel.

(** The contract of a release build: as in a debug build ([lazy_step]), except for [nth n] where the
    [front] elements already skipped or taken and [n] do not add up to a word. There nothing happens
    if the sum is exactly 2^64, and the call panics if it is larger. *)
Definition lazy_step_release {A} (s : N * list A) (op : iter_op) : res ((N * list A) * iter_out A) :=
  match op with
  | INth n => if 2 ^ 64 <=? fst s + n then if fst s + n =? 2 ^ 64 then Ok (s, OItem None) else Panic else lazy_step s op
  | _ => lazy_step s op
  end.

(** The argument of a call is a word. *)
Definition arg_fits (op : iter_op) : Prop :=
  match op with INth n | INthBack n => n < 2 ^ 64 | _ => True end.

Lemma shl64_wrap x w : shl64 (x mod 2 ^ 64) w = shl64 x w.
Proof.
  unfold shl64. rewrite !N.shiftl_mul_pow2. rewrite N.mul_mod_idemp_l by discriminate. reflexivity.
Qed.

(** ** Where a debug build answers, a release build computes the same. *)
Lemma gi_adv_sim it n o : n < 2 ^ 64 -> gi_advance_by it n = Ok o -> gi_advance_by_rel it n = Ok o.
Proof.
  intros Hn. unfold gi_advance_by, gi_advance_by_rel. destruct (N.eqb_spec n 0) as [?|Hn0]; auto. intros Eo. binv Eo s Es. pose proof (add_sim _ _ _ Es) as Ew. rewrite Ew.
  unfold add64 in Es. destruct (N.ltb_spec (gi_index it + n) U64) as [L|]; [|discriminate]. injection Es as <-. change U64 with (2 ^ 64) in L.
  rewrite wsub_ge by lia. destruct (some_gt _ (gi_back it)); auto. destruct (some_gt (gi_index it) (gi_back it)); auto.
  binv Eo r Er. apply sub_inv in Er. destruct Er as [L2 ->]. rewrite wsub_ge by auto. exact Eo.
Qed.
Section Sim.
Variable e : ef.
Hypothesis HL : forall i v, ef_low e i = Ok v -> i * ef_w e < 2 ^ 64.

Lemma value_sim pos i v : ei_value e pos i = Ok v -> i < 2 ^ 64 -> ei_value_rel e pos i = Ok v.
Proof using HL.
  intros Ev Hi. unfold ei_value in Ev. binv Ev s Es. apply sub_inv in Es. destruct Es as [L1 ->]. binv Ev u Eu. apply sub_inv in Eu. destruct Eu as [L2 ->].
  binv Ev lo El. binv Ev hi Eh. apply shl_sim in Eh. injection Ev as <-. unfold ei_value_rel. apply low_sim in El; auto. rewrite El. cbn [bind]. do 2 f_equal.
  rewrite <- Eh. unfold wrapping_sub. change U64 with (2 ^ 64).
  replace (pos + 2 ^ 64 - i) with (pos - i + 1 * 2 ^ 64) by lia. rewrite N.mod_add by discriminate.
  rewrite <- N.add_sub_assoc by lia. rewrite N.add_mod_idemp_l by discriminate.
  replace (pos - i + (2 ^ 64 - 1)) with (pos - i - 1 + 1 * 2 ^ 64) by lia. rewrite N.mod_add by discriminate. apply shl64_wrap.
Qed.
Lemma next_sim it it' o : ei_next e it = Ok (it', o) -> gi_index (ei_gi it') < 2 ^ 64 -> ei_next_rel e it = Ok (it', o).
Proof using HL.
  intros En Hi. unfold ei_next in En. unfold ei_next_rel. destruct (sel_next false (ef_upper e) (ei_up it)) as [[u x]| |]; try discriminate. cbn [bind] in *.
  destruct x as [pos|]; auto. binv En v Ev. binv En v2 E2. injection En as <- <-. cbn [ei_gi gi_index] in Hi.
  rewrite (value_sim _ _ _ Ev) by lia. cbn [bind]. apply add_sim in E2. rewrite E2, wadd_lt by auto. reflexivity.
Qed.
Lemma next_back_sim it it' o : ei_next_back e it = Ok (it', o) -> (forall b, gi_back (ei_gi it) = Some b -> b < 2 ^ 64) -> ei_next_back_rel e it = Ok (it', o).
Proof using HL.
  intros En Hi. unfold ei_next_back in En. unfold ei_next_back_rel. destruct (sel_next_back false (ef_upper e) (ei_up it)) as [[u x]| |]; try discriminate. cbn [bind] in *.
  destruct x as [pos|]; auto. destruct (gi_back (ei_gi it)) as [b|]; auto. binv En v Ev. binv En v2 E2. injection En as <- <-.
  rewrite (value_sim _ _ _ Ev) by auto. cbn [bind]. apply add_sim in E2. now rewrite E2.
Qed.
Lemma adv_sim it n o : n < 2 ^ 64 -> ei_advance_by e it n = Ok o -> ei_advance_by_rel e it n = Ok o.
Proof using HL.
  intros Hn. unfold ei_advance_by, ei_advance_by_rel. destruct (n =? 0); auto. intros Eo. binv Eo g Eg. apply gi_adv_sim in Eg; auto. rewrite Eg. exact Eo.
Qed.
Lemma back_le it n it' : ei_advance_back_by e it n = Ok (Some it') -> (forall b, gi_back (ei_gi it) = Some b -> b < 2 ^ 64) -> forall b, gi_back (ei_gi it') = Some b -> b < 2 ^ 64.
Proof using HL.
  unfold ei_advance_back_by, gi_advance_back_by. destruct (n =? 0); [intros Eo; injection Eo as <-; auto|].
  destruct (gi_empty _); [discriminate|]. destruct (gi_back (ei_gi it)) as [b|]; [|discriminate]. intros Eo Hb. binv Eo g Eg. binv Eg d Ed.
  destruct (_ <? n); injection Eg as <-; [discriminate|]. destruct (sel_nth_back _ _ _ _) as [[u x]| |]; try discriminate. cbn [bind] in Eo.
  destruct x; [|discriminate]. injection Eo as <-. cbn [ei_gi gi_back]. specialize (Hb b eq_refl). intros b'. destruct (n <=? b); [|discriminate]. intros Eb. injection Eb as <-. lia.
Qed.
Lemma step_sim it op it' o : arg_fits op -> ei_step e it op = Ok (it', o) -> gi_index (ei_gi it') < 2 ^ 64 ->
  (forall b, gi_back (ei_gi it) = Some b -> b < 2 ^ 64) -> ei_step_rel e it op = Ok (it', o).
Proof using HL.
  intros Ha Es Hi Hb. destruct op as [| |n|n|]; cbn [ei_step ei_step_rel arg_fits] in *; auto.
  - destruct (ei_next e it) as [[i2 o2]| |] eqn:En; try discriminate. cbn [bind] in Es. injection Es as <- <-. now rewrite (next_sim _ _ _ En).
  - destruct (ei_next_back e it) as [[i2 o2]| |] eqn:En; try discriminate. cbn [bind] in Es. injection Es as <- <-. now rewrite (next_back_sim _ _ _ En).
  - unfold ei_nth in Es. unfold ei_nth_rel. destruct (ei_advance_by e it n) as [r| |] eqn:Ea; try discriminate. rewrite (adv_sim _ _ _ Ha Ea). cbn [bind] in *.
    destruct r as [i1|]; auto. destruct (ei_next e i1) as [[i2 o2]| |] eqn:En; try discriminate. cbn [bind] in Es. injection Es as <- <-. now rewrite (next_sim _ _ _ En).
  - unfold ei_nth_back in Es. unfold ei_nth_back_rel. destruct (ei_advance_back_by e it n) as [r| |] eqn:Ea; try discriminate. cbn [bind] in *.
    destruct r as [i1|]; auto. destruct (ei_next_back e i1) as [[i2 o2]| |] eqn:En; try discriminate. cbn [bind] in Es. injection Es as <- <-.
    rewrite (next_back_sim _ _ _ En); auto. now apply (back_le it n).
Qed.
End Sim.

Section Iter.
Variables (data : list N) (w : N) (e : ef).
Hypothesis Hs : nondecreasing data.
Hypothesis Hd : Forall (fun x => x < 2 ^ 64) data.
Hypothesis Hw : w < 64.
Hypothesis E : ef_from_slice w data = Ok e.
Hypothesis Hm : 2 + lenN data + (nthN 0 data (lenN data - 1) - nthN 0 data 0) / 2 ^ w + 64 <= 2 ^ 64.
Hypothesis Hl : lenN data * w <= 2 ^ 64.

Lemma low_fits i v : ef_low e i = Ok v -> i * ef_w e < 2 ^ 64.
Proof using All.
  destruct (N.eq_dec (lenN data) 0) as [H0|H0].
  - assert (data = []) as -> by (destruct data; [auto|rewrite lenN_cons in H0; lia]). cbn in E. injection E as <-. cbn [ef_w]. lia.
  - apply (fit_low data w e Hs Hd ltac:(lia) Hw E Hm Hl).
Qed.
Lemma short : lenN data < 2 ^ 64.
Proof using Hm. revert Hm. generalize ((nthN 0 data (lenN data - 1) - nthN 0 data 0) / 2 ^ w). clear. intros. lia. Qed.
Lemma RR_bounds it f v : ei_RR data w e it (f, v) -> gi_inv (lenN data) (ei_gi it) /\ gi_index (ei_gi it) = f /\ lenN v = gi_rem (ei_gi it) /\ f + lenN v <= lenN data.
Proof using All.
  intros [(Ed & Es & R)|(Hne & R & I)].
  - injection Es as -> ->. destruct R as [Eg _]. rewrite Eg, Ed. change (lenN (@nil N)) with 0. destruct (gi_new_inv 0) as (H1 & H2 & H3). rewrite H2, H3. auto using N.le_refl.
  - cbn [fst snd] in *. destruct (ef_built data w e Hs Hd Hw E) as [(Ed & _)|[Hne' G]]; [rewrite Ed in Hne; cbn in Hne; lia|].
    pose proof (ei_len_v data w e Hs Hd Hne Hw G short it v R) as El. destruct R as (J & _). pose proof (gi_inv_bound _ _ J). rewrite El, <- I. auto.
Qed.
Lemma RR_back it f v b : ei_RR data w e it (f, v) -> gi_back (ei_gi it) = Some b -> b < 2 ^ 64.
Proof using All. intros R Eb. destruct (RR_bounds _ _ _ R) as ((_ & J) & _). destruct (J b Eb) as [H _]. pose proof short as S. clear - H S. lia. Qed.

Lemma RR_up it f v : ei_RR data w e it (f, v) -> forall k, lenN v <= k -> exists u, sel_nth false (ef_upper e) (ei_up it) k = Ok (u, None).
Proof using All.
  intros [(Ed & Es & R)|(Hne & R & I)] k Hk.
  - injection Es as -> ->. destruct (ef_built data w e Hs Hd Hw E) as [(_ & _ & _ & G)|[Hne G]]; [|rewrite Ed in Hne; cbn in Hne; lia].
    destruct R as [_ R]. destruct (sel_nth_ok false bv_new (ef_upper e) bv_new_wf G _ _ k R) as (u & Eu & _). exists u. rewrite Eu. do 2 f_equal. now apply getN_none.
  - cbn [fst snd] in *. destruct (ef_built data w e Hs Hd Hw E) as [(Ed & _)|[Hne' G]]; [rewrite Ed in Hne; cbn in Hne; lia|].
    pose proof (ei_len_v data w e Hs Hd Hne Hw G short it v R) as El. destruct R as (J & Hv & bv & H1 & H2 & H3 & S).
    destruct (sel_nth_ok false bv (ef_upper e) H1 H2 _ _ k S) as (u & Eu & _). exists u. rewrite Eu. rewrite getN_sliceN.
    destruct (N.ltb_spec k (gi_rem (ei_gi it))); [lia|reflexivity].
Qed.

Lemma RR_step_release it s op : arg_fits op -> ei_RR data w e it s ->
  match lazy_step_release s op with
  | Ok (s', o) => exists it', ei_step_rel e it op = Ok (it', o) /\ ei_RR data w e it' s'
  | r => ei_step_rel e it op = Panic /\ r = Panic
  end.
Proof using All.
  intros Ha R. destruct s as [f v]. pose proof short as Hn. destruct (RR_bounds _ _ _ R) as (J & If & Lv & Bd).
  pose proof (ei_RR_step data w e Hs Hd Hw E Hn it (f, v) op R) as H.
  assert (Plain : match lazy_step (f, v) op with
    | Ok (s', o) => exists it', ei_step_rel e it op = Ok (it', o) /\ ei_RR data w e it' s'
    | _ => True end).
  { destruct (lazy_step (f, v) op) as [[[f' v'] o]| |]; auto. destruct H as (it' & H1 & H2). exists it'. split; [|auto].
    destruct (RR_bounds _ _ _ H2) as (J' & If' & Lv' & Bd'). apply step_sim; auto; [exact low_fits|lia|]. intros b Hb. now apply (RR_back it f v b). }
  destruct op as [| |n|n|]; cbn [lazy_step_release]; try exact Plain.
  2: { cbn [lazy_step] in *. destruct (lenN v <? n); exact Plain. }
  cbn [fst arg_fits] in *. destruct (N.leb_spec (2 ^ 64) (f + n)) as [L|L].
  2: { cbn [lazy_step] in *. destruct (N.leb_spec (2 ^ 64) (f + n)) as [L'|_]; [lia|]. rewrite andb_false_r in *. destruct (lenN v <? n); exact Plain. }
  clear H Plain. cbn [ei_step_rel]. unfold ei_nth_rel, ei_advance_by_rel, gi_advance_by_rel.
  destruct (N.eqb_spec n 0) as [?|N0]; [lia|]. rewrite If. pose proof (gi_len_ok _ _ Hn J) as El. destruct J as [J1 J2].
  assert (Fp : 0 < f) by (clear - L Ha; lia).
  destruct (gi_back (ei_gi it)) as [b|] eqn:Eb; [|specialize (J1 eq_refl); lia]. destruct (J2 b eq_refl) as [Hb Hf]. rewrite If in Hf.
  assert (Lb : lenN v = b + 1 - f) by (rewrite Lv; unfold gi_rem; now rewrite Eb, If).
  destruct (N.eqb_spec (f + n) (2 ^ 64)) as [Q|Q].
  - assert (Eq1 : wrapping_add f n = 0) by (unfold wrapping_add; rewrite Q; reflexivity).
    rewrite Eq1. change (wrapping_sub 0 1) with (2 ^ 64 - 1). cbn [some_gt].
    destruct (N.ltb_spec b (2 ^ 64 - 1)) as [_|L2]; [|lia]. destruct (N.ltb_spec b f) as [_|L2].
    + cbn [bind]. exists it. auto.
    + rewrite El.
      rewrite <- Lv. rewrite wsub_ge by lia. destruct (N.eqb_spec (n - lenN v) 0); [lia|]. cbn [bind]. exists it. auto.
  - assert (Eq1 : wrapping_add f n = f + n - 2 ^ 64).
    { unfold wrapping_add. change U64 with (2 ^ 64). replace (f + n) with (f + n - 2 ^ 64 + 1 * 2 ^ 64) at 1 by lia. rewrite N.mod_add by discriminate. apply N.mod_small. lia. }
    rewrite Eq1. rewrite wsub_ge by lia. cbn [some_gt]. destruct (N.ltb_spec b (f + n - 2 ^ 64 - 1)) as [L2|_]; [lia|]. cbn [bind].
    destruct (RR_up it f v R (n - 1)) as (u & Eu); [lia|]. rewrite Eu. cbn [bind]. auto.
Qed.

(** ** C141 *)
(** The exact contract, for all sequences of calls with all arguments. *)
Theorem C141_iter ops : Forall arg_fits ops ->
  exists it, ef_iter_new e = Ok it /\ iter_run (ei_step_rel e) it ops = iter_run lazy_step_release (0, data) ops.
Proof using All.
  intros Ha. destruct (ei_RR_new data w e Hs Hd Hw E short) as (it & H1 & H2). exists it. split; auto. clear H1. revert it H2. generalize (0, data).
  induction Ha as [|op ops Ha Hr IH]; intros s it R; [reflexivity|]. cbn [iter_run].
  pose proof (RR_step_release it s op Ha R) as H. destruct (lazy_step_release s op) as [[s' o]| |].
  - destruct H as (it' & -> & R'). cbn [bind]. now rewrite (IH s' it' R').
  - destruct H as [-> _]. reflexivity.
  - destruct H as [_ [=]].
Qed.

(** Calls that stay inside follow the standard contract. *)
Theorem C141_inside ops : skips_inside true true data ops ->
  exists it, ef_iter_new e = Ok it /\ iter_run (ei_step_rel e) it ops = Ok (iter_spec_run data ops).
Proof using All.
  intros Ho. assert (Ha : forall l : list N, lenN l < 2 ^ 64 -> skips_inside true true l ops -> Forall arg_fits ops).
  { clear. induction ops as [|op ops IH]; intros l Hl Ho; [constructor|]. destruct Ho as [H1 H2]. constructor.
    - destruct op; cbn [arg_fits] in *; lia.
    - apply (IH _) in H2; auto. destruct op; cbn [iter_spec fst]; rewrite ?lenN_dropN, ?lenN_takeN; lia. }
  destruct (C141_iter ops) as (it & H1 & H2); [apply (Ha data); auto; apply short|]. exists it. split; auto. rewrite H2.
  rewrite <- (lazy_standard ops 0 data) by (auto; pose proof short; lia).
  assert (G : forall (l : list N) f, f + lenN l < 2 ^ 64 -> skips_inside true true l ops -> iter_run lazy_step_release (f, l) ops = iter_run lazy_step (f, l) ops).
  { clear. induction ops as [|op ops IH]; intros l f Hl Ho; [reflexivity|]. destruct Ho as [H1 H2]. cbn [iter_run].
    assert (Eo : lazy_step_release (f, l) op = lazy_step (f, l) op).
    { destruct op as [| |n|n|]; try reflexivity. cbn [lazy_step_release fst]. destruct (N.leb_spec (2 ^ 64) (f + n)); [lia|reflexivity]. }
    rewrite Eo. destruct op as [| |n|n|]; cbn [lazy_step iter_spec fst] in *.
    - cbn [bind]. rewrite IH; auto. rewrite lenN_dropN. lia.
    - cbn [bind]. rewrite IH; auto. rewrite lenN_takeN. lia.
    - destruct (N.leb_spec (2 ^ 64) (f + n)); [lia|]. rewrite andb_false_r. destruct (N.ltb_spec (lenN l) n); [lia|]. cbn [bind]. rewrite IH; auto. rewrite lenN_dropN. lia.
    - destruct (N.ltb_spec (lenN l) n); [lia|]. cbn [bind]. rewrite IH; auto. rewrite lenN_takeN. lia.
    - cbn [bind]. rewrite IH; auto. }
  apply G; auto. pose proof short. lia.
Qed.

(** [min], [last] and [max] are those of a debug build. *)
Theorem C141_last it f v : ei_reach e data it (f, v) ->
  ei_min_rel e it = Ok (getN v 0) /\
  ei_last_rel e it = Ok (match getN (rev v) 0 with Some x => Some (x - nthN 0 data 0) | None => None end) /\
  ei_max_rel e it = ei_last_rel e it.
Proof using All.
  intros H. destruct (C53_last data w e Hs Hd Hw E short it f v H) as (H1 & _ & H2 & _).
  apply (ei_reach_RR data w e Hs Hd Hw E short) in H. split; [|split; [|reflexivity]].
  - pose proof (ei_RR_step data w e Hs Hd Hw E short it (f, v) INext H) as Hn. cbn [lazy_step ei_step] in Hn. destruct Hn as (it' & Hn & R').
    destruct (RR_bounds _ _ _ R') as (_ & If' & _ & Bd'). unfold ei_min in H1. unfold ei_min_rel.
    destruct (ei_next e it) as [[i2 o2]| |] eqn:En; try discriminate. cbn [bind] in *. injection Hn as -> _. injection H1 as ->.
    rewrite (next_sim e low_fits _ _ _ En); [reflexivity|]. pose proof short. lia.
  - unfold ei_last in H2. unfold ei_last_rel. destruct (gi_empty _); auto. binv H2 x Ex. rewrite Ex. cbn [bind]. destruct x as [pos|]; [|discriminate].
    destruct (gi_back (ei_gi it)) as [b|] eqn:Eb; [|discriminate]. binv H2 y Ey. rewrite (value_sim e low_fits _ _ _ Ey); auto. now apply (RR_back it f v).
Qed.
End Iter.

(** A skip past the end of the address space that ends behind the front: a debug build panics at the
    overflow, a release build when the positions run out; exactly at the end it returns nothing and the
    iterator is unchanged. *)
Example C141_ex :
  iter_run (ei_step_rel ex_efv) ex_efi [INext; INth 1; INthBack 1; INth (2 ^ 64 - 3); INext; ILen] =
    Ok [OItem (Some 7); OItem (Some 9); OItem (Some 31); OItem None; OItem (Some 30); OLen 1] /\
  iter_run (ei_step_rel ex_efv) ex_efi [INext; INth 1; INth (2 ^ 64 - 2)] = Panic /\
  iter_run (ei_step ex_efv) ex_efi [INext; INth 1; INth (2 ^ 64 - 3)] = Panic /\
  ei_last_rel ex_efv ex_efi = Ok (Some 83).
Proof. vm_compute. auto. Qed.
