(** * Property C139: wavelet matrices agree with Elias-Fano vectors and with range minimum structures.
    The order queries of a wavelet matrix on a range [a, b) give the answers of an Elias-Fano vector that
    holds the same elements in ascending order, and its range minimum is the element found by both range
    minimum structures. *)
From Verif Require Import Base Spec BaseFacts IterSpec IterFacts EFModel EFProofs RmqModel PropsRmq
  WaveletModel WaveletProofs PropsWavelet.
From Verif Require PropsEF.
From Coq Require Import Permutation Sorted.

Lemma nondecreasing_sorted l : nondecreasing l -> Sorted N.le l.
Proof.
  induction l as [|x l IH]; intros H; constructor.
  - apply IH. intros i j y z Hij Hy Hz. apply (H (i + 1) (j + 1)); [lia| |]; now rewrite getN_cons_succ.
  - destruct l as [|y l]; constructor. apply (H 0 (0 + 1)); [lia|reflexivity|]. now rewrite getN_cons_succ.
Qed.
Lemma pred_unique q l o1 o2 : is_predecessor q l o1 -> is_predecessor q l o2 -> o1 = o2.
Proof.
  destruct o1 as [x|], o2 as [y|]; cbn; auto.
  - intros (A1 & A2 & A3) (B1 & B2 & B3). specialize (A3 y B1 B2). specialize (B3 x A1 A2). f_equal. lia.
  - intros (A1 & A2 & _) B. specialize (B x A1). lia.
  - intros A (B1 & B2 & _). specialize (A y B1). lia.
Qed.
Lemma succ_unique q l o1 o2 : is_successor q l o1 -> is_successor q l o2 -> o1 = o2.
Proof.
  destruct o1 as [x|], o2 as [y|]; cbn; auto.
  - intros (A1 & A2 & A3) (B1 & B2 & B3). specialize (A3 y B1 B2). specialize (B3 x A1 A2). f_equal. lia.
  - intros (A1 & A2 & _) B. specialize (B x A1). lia.
  - intros A (B1 & B2 & _). specialize (A y B1). lia.
Qed.
Lemma pred_perm q l m o : Permutation m l -> PropsEF.is_predecessor m q o -> is_predecessor q l o.
Proof.
  intros Hp. assert (Hi : forall y, In y l -> In y m) by (intros y; now apply Permutation_in, Permutation_sym).
  destruct o as [x|]; cbn; [|auto]. intros (A1 & A2 & A3). split; [now apply (Permutation_in x Hp)|auto].
Qed.
Lemma succ_perm q l m o : Permutation m l -> PropsEF.is_successor m q o -> is_successor q l o.
Proof.
  intros Hp. assert (Hi : forall y, In y l -> In y m) by (intros y; now apply Permutation_in, Permutation_sym).
  destruct o as [x|]; cbn; [|auto]. intros (A1 & A2 & A3). split; [now apply (Permutation_in x Hp)|auto].
Qed.
Lemma below_equal q l : lenN (filter (fun x => x <? q + 1) l) = lenN (filter (fun x => x <? q) l) + occurrences q l.
Proof.
  unfold occurrences. induction l as [|x l IH]; [reflexivity|]. cbn [filter].
  destruct (N.ltb_spec x (q + 1)), (N.ltb_spec x q), (N.eqb_spec q x); try lia; rewrite ?lenN_cons, IH; lia.
Qed.
Lemma occurrences_perm q l m : Permutation l m -> occurrences q l = occurrences q m.
Proof.
  unfold occurrences. induction 1 as [|x l m _ IH|x y l|l m n _ IH1 _ IH2]; cbn [filter]; [reflexivity| | |congruence].
  - destruct (q =? x); rewrite ?lenN_cons, IH; reflexivity.
  - destruct (q =? x), (q =? y); rewrite ?lenN_cons; reflexivity.
Qed.
Lemma perm_lenN {A} (l m : list A) : Permutation l m -> lenN l = lenN m.
Proof. intros H. unfold lenN. now rewrite (Permutation_length H). Qed.
Lemma built_from data k m : 1 <= k -> k <= 64 -> Forall (fun x => x < 2 ^ k) data -> wm_from_slice data k = Ok m -> wm_built m data k.
Proof.
  intros H1 H2 Hd E. destruct (C32_from_slice data k H1 H2) as (m' & E' & Hb & _). rewrite E in E'. injection E' as <-.
  rewrite map_ext_in with (g := fun x => x) in Hb; [now rewrite map_id in Hb|].
  intros x Hx. apply N.mod_small. now apply (proj1 (Forall_forall _ _) Hd).
Qed.

(** ** C139: a range of a wavelet matrix and the sorted range in an Elias-Fano vector. *)
Theorem C139_elias_fano data k a b sl w e m :
  1 <= k -> k <= 64 -> Forall (fun x => x < 2 ^ k) data -> a < b -> b <= lenN data ->
  Permutation sl (sliceN a (b - a) data) -> nondecreasing sl -> w < 64 ->
  ef_from_slice w sl = Ok e -> wm_from_slice data k = Ok m ->
  ef_n e = b - a /\
  (forall i, wm_quantile_u64 m a b i = ef_get e i) /\
  wm_range_min_u64 m a b = ef_get e 0 /\ wm_range_max_u64 m a b = ef_get e (b - a - 1) /\
  wm_range_median_u64 m a b = ef_get e ((b - a - 1) / 2) /\
  (forall q, q < 2 ^ k ->
     wm_predecessor_u64 m a b q = ef_predecessor e q /\ wm_successor_u64 m a b q = ef_successor e q /\
     (q + 1 < 2 ^ 64 -> exists r c, ef_rank e q = Ok r /\ ef_rank e (q + 1) = Ok (r + c) /\
        wm_rank_range_u64 m a b q = Ok (Some c))).
Proof.
  intros H1 H2 Hd Hab Hbn Hp Hs Hw Ee Em. pose proof (built_from data k m H1 H2 Hd Em) as Hb.
  assert (Hk : 2 ^ k <= 2 ^ 64) by (apply N.pow_le_mono_r; lia).
  assert (Hsl : Forall (fun x => x < 2 ^ 64) sl).
  { apply Forall_forall. intros x Hx. apply (Permutation_in x Hp) in Hx. apply In_getN in Hx as (i & _ & Hi). rewrite getN_sliceN in Hi.
    destruct (i <? b - a); [|discriminate]. apply getN_In in Hi. apply (proj1 (Forall_forall _ _) Hd) in Hi. lia. }
  pose proof (nondecreasing_sorted sl Hs) as Hso.
  assert (Hg : forall i, ef_get e i = Ok (getN sl i)) by (intros i; apply (PropsEF.C21_get sl w e i Hs Hsl Hw Ee)).
  assert (Ga : (a <? lenN data) = true) by (apply N.ltb_lt; lia). assert (Gb : (b <=? lenN data) = true) by now apply N.leb_le.
  assert (Gk : (k <=? 64) = true) by now apply N.leb_le. assert (Gc : (a <? b) = true) by now apply N.ltb_lt.
  assert (Hab' : a <= b) by lia.
  split; [|split; [|split; [|split; [|split]]]].
  - destruct (proj1 (PropsEF.C21_construction sl w Hsl Hw) Hs) as (e' & E' & En). rewrite Ee in E'. injection E' as <-.
    rewrite En, (perm_lenN _ _ Hp). apply lenN_sliceN. lia.
  - intros i. rewrite Hg, (C36_quantile_u64 m data k Hb a b i sl Hab' Hp Hso), Ga, Gb, Gk. reflexivity.
  - rewrite Hg. destruct (C36_min m data k Hb a b sl Hab' Hp Hso) as [_ ->]. now rewrite Ga, Gb, Gk.
  - rewrite Hg. destruct (C36_max m data k Hb a b sl Hp Hso) as [_ ->]. now rewrite Gc, Gb, Gk.
  - rewrite Hg. destruct (C36_median m data k Hb a b sl Hp Hso) as [_ ->]. now rewrite Gc, Gb, Gk.
  - intros q Hq. assert (Hq64 : q < 2 ^ 64) by lia. split; [|split].
    + destruct (C37_predecessor_u64 m data k Hb a b q H2 Hq Hab Hbn) as (o & -> & Ho).
      destruct (PropsEF.C22_predecessor sl w e q Hs Hsl Hw Ee Hq64) as (o' & -> & Ho').
      f_equal. apply (pred_unique q _ _ _ Ho). now apply (pred_perm q _ sl).
    + destruct (C37_successor_u64 m data k Hb a b q H2 Hq Hab Hbn) as (o & -> & Ho).
      destruct (PropsEF.C23_successor sl w e q Hs Hsl Hw Ee Hq64) as (o' & -> & Ho').
      f_equal. apply (succ_unique q _ _ _ Ho). now apply (succ_perm q _ sl).
    + intros Hq1. exists (lenN (filter (fun x => x <? q) sl)), (occurrences q sl).
      split; [now apply (PropsEF.C24_rank sl w)|]. split; [rewrite <- below_equal; now apply (PropsEF.C24_rank sl w)|].
      rewrite (C34_rank_range_u64 m data k Hb a b q Hab' Hq), Ga, Gb, Gk. cbn [andb]. now rewrite (occurrences_perm q _ _ Hp).
Qed.

(** ** C139: the minimum of a range, found by the wavelet matrix and by the range minimum structures. *)
Theorem C139_rmq data k i j m br fr :
  1 <= k -> k <= 64 -> Forall (fun x => x < 2 ^ k) data -> i <= j -> j < lenN data ->
  wm_from_slice data k = Ok m -> br_from_vec data = Ok br -> fr_from_vec data = Ok fr ->
  exists p q, br_range_min br i j = Ok p /\ fr_range_min fr i j = Ok q /\
    wm_range_min_u64 m i (j + 1) = Ok (getN data p) /\ wm_range_min_u64 m i (j + 1) = Ok (getN data q).
Proof.
  intros H1 H2 Hd Hij Hj Em Eb Ef. pose proof (built_from data k m H1 H2 Hd Em) as Hb.
  assert (Hl : lenN data < 2 ^ 32).
  { destruct (N.le_gt_cases (2 ^ 32) (lenN data)) as [Hl|]; [|auto]. destruct (C28_construction data) as [_ C]. rewrite C in Eb by auto. discriminate. }
  destruct (C28_range_min data i j Hl Hij Hj) as (br' & p & Eb' & Ep & P1 & P2 & P3). rewrite Eb in Eb'. injection Eb' as <-.
  destruct (C29_range_min data fr i j Ef Hij Hj) as (q & Eq & Q1 & Q2 & Q3).
  exists p, q. split; [auto|]. split; [auto|].
  destruct (sorted_exists (sliceN i (j + 1 - i) data)) as (sl & Hp & Hs).
  destruct (C36_min m data k Hb i (j + 1) sl ltac:(lia) Hp Hs) as [_ ->].
  destruct (N.ltb_spec i (lenN data)), (N.leb_spec (j + 1) (lenN data)), (N.leb_spec k 64); try lia. cbn [andb].
  assert (Hlen : lenN sl = j + 1 - i) by (rewrite (perm_lenN _ _ Hp); apply lenN_sliceN; lia).
  destruct sl as [|x sl]; [cbn in Hlen; lia|]. change (getN (x :: sl) 0) with (Some x).
  assert (Hx : exists c, i <= c /\ c <= j /\ getN data c = Some x).
  { assert (Hi : In x (sliceN i (j + 1 - i) data)) by (apply (Permutation_in x Hp); now left).
    apply In_getN in Hi as (c & _ & Hc). rewrite getN_sliceN in Hc. destruct (N.ltb_spec c (j + 1 - i)); [|discriminate]. exists (i + c). repeat split; auto; lia. }
  assert (Hmin : forall c y, i <= c -> c <= j -> getN data c = Some y -> x <= y).
  { intros c y Hc1 Hc2 Hc. assert (Hi : In y (x :: sl)).
    { apply (Permutation_in y (Permutation_sym Hp)). apply (getN_In _ (c - i)). rewrite getN_sliceN. destruct (N.ltb_spec (c - i) (j + 1 - i)); [|lia]. now replace (i + (c - i)) with c by lia. }
    destruct Hi as [<-|Hi]; [lia|]. apply Sorted_StronglySorted in Hs; [|intros u v z; apply N.le_trans]. inversion Hs as [|? ? _ F]. now apply (proj1 (Forall_forall _ _) F). }
  destruct Hx as (c & Hc1 & Hc2 & Hc).
  assert (Hone : forall p, i <= p -> p <= j -> (forall m x y, i <= m -> m <= j -> getN data p = Some x -> getN data m = Some y -> x <= y) -> Ok (Some x) = Ok (getN data p)).
  { intros p' A1 A2 A3. rewrite (getN_ok 0 data p') by lia. f_equal. f_equal. pose proof (getN_ok 0 data p' ltac:(lia)) as Hp'.
    pose proof (Hmin p' _ A1 A2 Hp'). pose proof (A3 c _ _ Hc1 Hc2 Hp' Hc). lia. }
  split; now apply Hone.
Qed.
Example C139_ex : let data := [6; 3; 7; 1; 3; 5] in
  match wm_from_slice data 3, ef_from_slice 2 [1; 3; 3; 7], br_from_vec data, fr_from_vec data with
  | Ok m, Ok e, Ok br, Ok fr =>
      wm_quantile_u64 m 1 5 2 = Ok (Some 3) /\ ef_get e 2 = Ok (Some 3) /\
      wm_predecessor_u64 m 1 5 6 = Ok (Some 3) /\ ef_predecessor e 6 = Ok (Some 3) /\
      wm_successor_u64 m 1 5 4 = Ok (Some 7) /\ ef_successor e 4 = Ok (Some 7) /\
      ef_rank e 3 = Ok 1 /\ ef_rank e 4 = Ok 3 /\ wm_rank_range_u64 m 1 5 3 = Ok (Some 2) /\
      br_range_min br 1 4 = Ok 3 /\ fr_range_min fr 1 4 = Ok 3 /\ wm_range_min_u64 m 1 5 = Ok (Some 1)
  | _, _, _, _ => False end.
Proof. vm_compute. repeat split. Qed.
