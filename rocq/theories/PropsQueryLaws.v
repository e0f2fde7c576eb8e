(** * Property C144: laws between the queries of Elias-Fano vectors, and between those of wavelet matrices.
    The statements relate answers of the modelled functions to each other and do not mention the data. *)
From Coq Require Import Permutation Sorted.
From Verif Require Import Base Spec BaseFacts IterSpec IterFacts EFModel EFProofs WaveletModel WaveletProofs PropsWavelet PropsAgree PropsAgreeSorted PropsIter.
From Verif Require PropsEF PropsBitSet.

Lemma getN_Some_lt {A} (l : list A) i x : getN l i = Some x -> i < lenN l.
Proof. intros E. destruct (N.ltb_spec i (lenN l)) as [|H]; [auto|]. rewrite getN_none in E by auto. discriminate. Qed.
Lemma takeN_add {A} (a b : N) (l : list A) : takeN (a + b) l = takeN a l ++ takeN b (dropN a l).
Proof.
  destruct (N.leb_spec a (lenN l)) as [H|H].
  - rewrite <- (takeN_dropN a l) at 1. rewrite takeN_app_ge by (rewrite lenN_takeN; lia). do 2 f_equal. rewrite lenN_takeN. lia.
  - rewrite !takeN_all by (try rewrite lenN_dropN; lia). now rewrite dropN_all, app_nil_r by lia.
Qed.
Lemma sorted_nondecreasing l : Sorted N.le l -> nondecreasing l.
Proof.
  intros H. assert (S : StronglySorted N.le l) by (apply Sorted_StronglySorted; [intros x y z; apply N.le_trans|auto]). clear H. induction S as [|x l S IH F]; intros i j y z Hij Hy Hz; [rewrite getN_none in Hy by (cbn; lia); discriminate|].
  destruct (N.eq_dec j 0) as [->|Hj]; [replace i with 0 in Hy by lia; rewrite Hy in Hz; injection Hz as ->; lia|]. replace j with (j - 1 + 1) in Hz by lia. rewrite getN_cons_succ in Hz.
  destruct (N.eq_dec i 0) as [->|Hi]; [change (getN (x :: l) 0) with (Some x) in Hy; injection Hy as <-; apply (proj1 (Forall_forall _ _) F), (getN_In _ _ _ Hz)|].
  replace i with (i - 1 + 1) in Hy by lia. rewrite getN_cons_succ in Hy. apply (IH (i - 1) (j - 1)); auto. lia.
Qed.
(** In a nondecreasing list the elements below [q] come first. *)
Lemma below_first l q : nondecreasing l -> let r := lenN (filter (fun x => x <? q) l) in
  r <= lenN l /\ (forall i x, getN l i = Some x -> (i < r <-> x < q)).
Proof.
  cbv zeta. induction l as [|y l IH]; intros H; [split; [cbn; lia|]; intros i x E; rewrite getN_none in E by (cbn; lia); discriminate|].
  assert (H' : nondecreasing l). { intros i j a b Hij Ha Hb. apply (H (i + 1) (j + 1)); [lia| |]; now rewrite getN_cons_succ. }
  destruct (IH H') as [L C]. cbn [filter]. destruct (N.ltb_spec y q) as [Hy|Hy].
  - rewrite !lenN_cons. split; [lia|]. intros i x. destruct (N.eq_dec i 0) as [->|Hi].
    + intros E. change (getN (y :: l) 0) with (Some y) in E. injection E as <-. split; [auto|lia].
    + replace i with (i - 1 + 1) at 1 by lia. rewrite getN_cons_succ. intros E. rewrite <- (C _ _ E). lia.
  - assert (Z : filter (fun x => x <? q) l = []).
    { destruct (filter (fun x => x <? q) l) as [|z m] eqn:F; [auto|exfalso]. assert (I : In z (filter (fun x => x <? q) l)) by (rewrite F; now left). apply filter_In in I as [I1 I2]. apply N.ltb_lt in I2.
      apply In_getN in I1 as (i & _ & E). assert (y <= z); [|lia]. apply (H 0 (i + 1)); [lia|reflexivity|]. now rewrite getN_cons_succ. }
    rewrite Z, lenN_cons. change (lenN (@nil N)) with 0. split; [lia|]. intros i x E. split; [lia|]. intros Hx. assert (y <= x); [|lia]. apply (H 0 i); [lia|reflexivity|exact E].
Qed.

(** ** C144, Elias-Fano vectors. *)
Theorem C144_elias_fano data w e :
  nondecreasing data -> Forall (fun x => x < 2 ^ 64) data -> w < 64 -> ef_from_slice w data = Ok e ->
  (forall q, q < 2 ^ 64 -> exists r, ef_rank e q = Ok r /\ r <= ef_n e /\ ef_successor e q = ef_get e r) /\
  (forall q, q + 1 < 2 ^ 64 -> exists r, ef_rank e (q + 1) = Ok r /\ ef_predecessor e q = if r =? 0 then Ok None else ef_get e (r - 1)) /\
  (forall i x, ef_get e i = Ok (Some x) -> ef_predecessor e x = Ok (Some x) /\ ef_successor e x = Ok (Some x) /\
     exists r, ef_rank e x = Ok r /\ r <= i /\ ef_get e r = Ok (Some x)) /\
  (forall i x y, ef_get e i = Ok (Some x) -> ef_get e (i + 1) = Ok (Some y) -> exists d, ef_delta e (i + 1) = Ok (Some d) /\ x + d = y).
Proof.
  intros Hs Hd Hw He. destruct (PropsEF.C21_construction data w Hd Hw) as [Hc _]. destruct (Hc Hs) as (e' & E' & Hn). rewrite He in E'. injection E' as <-.
  assert (HG : forall i, ef_get e i = Ok (getN data i)) by (intros i; now apply (PropsEF.C21_get data w e i)).
  assert (Hlt : forall i x, getN data i = Some x -> x < 2 ^ 64) by (intros i x E; apply (proj1 (Forall_forall _ _) Hd), (getN_In _ _ _ E)).
  assert (HS : forall q, q < 2 ^ 64 -> ef_successor e q = ef_get e (lenN (filter (fun x => x <? q) data))).
  { intros q Hq. destruct (PropsEF.C23_successor data w e q Hs Hd Hw He Hq) as (o & E & Ho). rewrite E, HG. f_equal. destruct (below_first data q Hs) as [L C]. set (r := lenN (filter _ data)) in *.
    apply (succ_unique q data); [now apply (succ_perm q data data)|]. destruct (getN data r) as [x|] eqn:Ex; cbn.
    - split; [now apply getN_In in Ex|]. split; [destruct (N.leb_spec q x) as [|A]; [auto|]; apply (C _ _ Ex) in A; lia|]. intros y Iy Hy. apply In_getN in Iy as (i & _ & Ey). apply (Hs r i); auto.
      destruct (N.leb_spec r i) as [|A]; [auto|]. apply (C _ _ Ey) in A. lia.
    - intros y Iy. apply In_getN in Iy as (i & Li & Ey). apply (C _ _ Ey). destruct (N.ltb_spec r (lenN data)) as [A|A]; [rewrite (getN_ok 0) in Ex by auto; discriminate|lia]. }
  assert (HP : forall q r, q < 2 ^ 64 -> r <= lenN data -> (forall i x, getN data i = Some x -> (i < r <-> x <= q)) -> ef_predecessor e q = if r =? 0 then Ok None else ef_get e (r - 1)).
  { intros q r Hq L C. destruct (PropsEF.C22_predecessor data w e q Hs Hd Hw He Hq) as (o & E & Ho). rewrite E, HG.
    assert (Q : o = if r =? 0 then None else getN data (r - 1)); [|rewrite Q; now destruct (r =? 0)].
    apply (pred_unique q data); [now apply (pred_perm q data data)|]. destruct (N.eqb_spec r 0) as [->|Hr].
    - cbn. intros y Iy. apply In_getN in Iy as (i & _ & Ey). destruct (N.ltb_spec q y) as [|A]; [auto|]. apply (C _ _ Ey) in A. lia.
    - rewrite (getN_ok 0) by lia. cbn. assert (Er : getN data (r - 1) = Some (nthN 0 data (r - 1))) by (apply getN_ok; lia). split; [now apply getN_In in Er|]. split; [apply (C _ _ Er); lia|].
      intros y Iy Hy. apply In_getN in Iy as (i & _ & Ey). apply (Hs i (r - 1)); auto. apply (C _ _ Ey) in Hy. lia. }
  split; [|split; [|split]].
  - intros q Hq. eexists. split; [now apply (PropsEF.C24_rank data w)|]. split; [rewrite Hn; now apply below_first|now apply HS].
  - intros q Hq. eexists. split; [now apply (PropsEF.C24_rank data w)|]. destruct (below_first data (q + 1) Hs) as [L C]. apply HP; [lia|auto|]. intros i x E. rewrite (C i x E). lia.
  - intros i x. rewrite HG. intros H. injection H as E. pose proof (Hlt _ _ E) as Hx. destruct (below_first data x Hs) as [L C]. set (r := lenN (filter _ data)) in *.
    assert (Hri : r <= i) by (destruct (N.leb_spec r i) as [|A]; [auto|]; apply (C _ _ E) in A; lia).
    assert (Er : getN data r = Some x).
    { pose proof (getN_Some_lt _ _ _ E) as Li. assert (G : getN data r = Some (nthN 0 data r)) by (apply getN_ok; lia). rewrite G. f_equal.
      pose proof (Hs r i _ _ Hri G E). destruct (N.ltb_spec (nthN 0 data r) x) as [A|A]; [apply (C _ _ G) in A; lia|lia]. }
    split; [|split].
    + destruct (PropsEF.C22_predecessor data w e x Hs Hd Hw He Hx) as (o & Eo & Ho). rewrite Eo. f_equal. apply (pred_unique x data); [now apply (pred_perm x data data)|]. cbn. split; [now apply getN_In in E|]. split; [lia|auto].
    + rewrite HS by auto. fold r. now rewrite HG, Er.
    + exists r. split; [now apply (PropsEF.C24_rank data w)|]. split; [auto|]. now rewrite HG, Er.
  - intros i x y. rewrite !HG. intros H1 H2. injection H1 as E1. injection H2 as E2. rewrite (PropsEF.C25_delta data w e (i + 1) Hs Hd Hw He), E2. destruct (N.eqb_spec (i + 1) 0); [lia|]. rewrite N.add_sub, E1.
    eexists. split; [reflexivity|]. pose proof (Hs i (i + 1) _ _ ltac:(lia) E1 E2). lia.
Qed.

(** ** C144, wavelet matrices. *)
Lemma occ_positions s l : occurrence_positions s 0 l = positions true (map (fun x => x =? s) l).
Proof.
  unfold occurrence_positions. assert (E : map (fun x => x =? s) l = bools (fun p => nthN 0 l p =? s) (lenN l)).
  { apply (list_ext false); [rewrite lenN_bools; unfold lenN; now rewrite map_length|]. intros i Hi. assert (i < lenN l) by (unfold lenN in *; now rewrite map_length in Hi). rewrite (nthN_map _ 0) by auto. now rewrite nthN_bools. }
  rewrite E, PropsBitSet.positions_filter. apply filter_ext. intros p. destruct (N.leb_spec 0 p); [|lia]. cbn [andb]. now destruct (nthN 0 l p =? s).
Qed.
Lemma count_occ s l : count true (map (fun x => x =? s) l) = occurrences s l.
Proof. unfold occurrences. induction l as [|x l IH]; [reflexivity|]. cbn [map count filter]. rewrite IH, (N.eqb_sym s x). destruct (x =? s); cbn [Bool.eqb]; rewrite ?lenN_cons; lia. Qed.
Lemma occ_In s l : 0 < occurrences s l <-> In s l.
Proof.
  unfold occurrences. split.
  - intros H. destruct (filter (N.eqb s) l) as [|x m] eqn:F; [cbn in H; lia|]. assert (I : In x (filter (N.eqb s) l)) by (rewrite F; now left). apply filter_In in I as [I1 I2]. apply N.eqb_eq in I2. now subst.
  - intros I. assert (In s (filter (N.eqb s) l)) by (apply filter_In; split; [auto|apply N.eqb_refl]). destruct (filter (N.eqb s) l); [contradiction|]. rewrite lenN_cons. lia.
Qed.
Lemma select_rank l s r p : getN (occurrence_positions s 0 l) r = Some p <-> getN l p = Some s /\ occurrences s (takeN p l) = r.
Proof.
  rewrite occ_positions, getN_positions, takeN_map, count_occ. cbn [negb]. assert (EL : lenN (map (fun x => x =? s) l) = lenN l) by (unfold lenN; now rewrite map_length). rewrite EL. split.
  - intros (A & E & C). split; [|auto]. rewrite (nthN_map _ 0) in E by auto. apply N.eqb_eq in E. rewrite (getN_ok 0) by auto. now rewrite E.
  - intros [E C]. pose proof (getN_Some_lt _ _ _ E) as L. split; [auto|]. split; [|auto]. rewrite (nthN_map _ 0) by auto. rewrite (getN_ok 0) in E by auto. injection E as ->. apply N.eqb_refl.
Qed.

Theorem C144_wavelet w l k a b :
  wm_built w l k -> k <= 64 -> lenN l < 2 ^ 63 -> a < b -> b <= wm_len w ->
  (forall s r p, s < 2 ^ k -> r < 2 ^ 63 ->
     (wm_select_u64 w r s = Ok (Some p) <-> wm_get_u64 w p = Ok (Some s) /\ wm_rank_u64 w p s = Ok (Some r))) /\
  (forall s c, s < 2 ^ k -> a <= c -> c < b -> exists x y, wm_rank_range_u64 w a c s = Ok (Some x) /\ wm_rank_range_u64 w c b s = Ok (Some y) /\ wm_rank_range_u64 w a b s = Ok (Some (x + y))) /\
  (forall i j x y, i <= j -> wm_quantile_u64 w a b i = Ok (Some x) -> wm_quantile_u64 w a b j = Ok (Some y) ->
     x <= y /\ exists c, wm_rank_range_u64 w a b x = Ok (Some c) /\ 0 < c) /\
  (forall s c, s < 2 ^ k -> wm_rank_range_u64 w a b s = Ok (Some c) -> 0 < c -> exists i, i < b - a /\ wm_quantile_u64 w a b i = Ok (Some s)) /\
  (forall s p, s < 2 ^ k -> wm_predecessor_u64 w a b s = Ok (Some p) ->
     p <= s /\ wm_successor_u64 w a b p = Ok (Some p) /\ forall i x, wm_quantile_u64 w a b i = Ok (Some x) -> x <= s -> x <= p) /\
  (forall s p, s < 2 ^ k -> wm_successor_u64 w a b s = Ok (Some p) ->
     s <= p /\ wm_predecessor_u64 w a b p = Ok (Some p) /\ forall i x, wm_quantile_u64 w a b i = Ok (Some x) -> s <= x -> p <= x).
Proof.
  intros Hb Hk Hl Hab Hbl. destruct (wm_built_small _ _ _ Hb) as (K1 & _ & EL & Hsm). rewrite EL in Hbl. change (2 ^ 63) with 9223372036854775808 in *.
  assert (Hin : forall x, In x (sliceN a (b - a) l) -> x < 2 ^ k).
  { intros x I. apply (proj1 (Forall_forall _ _) Hsm). apply In_getN in I as (i & _ & E). rewrite getN_sliceN in E. destruct (i <? b - a); [|discriminate]. now apply getN_In in E. }
  destruct (sorted_exists (sliceN a (b - a) l)) as (sl & Pl & Sl).
  assert (HQ : forall i, wm_quantile_u64 w a b i = Ok (getN sl i)).
  { intros i. rewrite (C36_quantile_u64 w l k Hb a b i sl) by (auto; lia). destruct (N.ltb_spec a (lenN l)), (N.leb_spec b (lenN l)), (N.leb_spec k 64); try lia. reflexivity. }
  assert (HR : forall c d s, c <= d -> c < lenN l -> d <= lenN l -> s < 2 ^ k -> wm_rank_range_u64 w c d s = Ok (Some (occurrences s (sliceN c (d - c) l)))).
  { intros c d s A B C D. rewrite (C34_rank_range_u64 w l k Hb) by auto. destruct (N.ltb_spec c (lenN l)), (N.leb_spec d (lenN l)), (N.leb_spec k 64); try lia. reflexivity. }
  assert (HI : forall i x, wm_quantile_u64 w a b i = Ok (Some x) -> In x (sliceN a (b - a) l)).
  { intros i x. rewrite HQ. intros E. injection E as E. apply getN_In in E. now apply (Permutation_in x Pl). }
  split; [|split; [|split; [|split; [|split]]]].
  - intros s r p Hs Hr. rewrite (C35_select_u64_partial w l k Hb r s Hs) by (change (2 ^ 64) with 18446744073709551616; lia). destruct (C32_get w l k p Hb) as (_ & -> & _). rewrite (C34_rank_u64 w l k Hb p s Hs).
    destruct (N.leb_spec k 64); [|lia]. rewrite Bool.andb_true_r. split.
    + intros E. injection E as E. apply select_rank in E as [E1 E2]. pose proof (getN_Some_lt _ _ _ E1). destruct (N.leb_spec p (lenN l)); [|lia]. now rewrite E1, E2.
    + intros [E1 E2]. injection E1 as E1. destruct (N.leb_spec p (lenN l)); [|discriminate]. injection E2 as E2. f_equal. now apply select_rank.
  - intros s c Hs A C. rewrite !HR by (auto; lia). eexists _, _. split; [reflexivity|]. split; [reflexivity|]. do 2 f_equal.
    unfold occurrences. rewrite <- lenN_app, <- filter_app. do 2 f_equal. unfold sliceN. replace (b - a) with ((c - a) + (b - c)) by lia. rewrite takeN_add, dropN_dropN. do 3 f_equal. lia.
  - intros i j x y Hij Ex Ey. split.
    + rewrite HQ in Ex, Ey. injection Ex as Ex. injection Ey as Ey. apply (sorted_nondecreasing sl Sl i j); auto.
    + apply HI in Ex. eexists. split; [apply HR; auto; lia|]. now apply occ_In.
  - intros s c Hs E H. rewrite HR in E by (auto; lia). injection E as <-. apply occ_In in H. apply (Permutation_in s (Permutation_sym Pl)) in H. apply In_getN in H as (i & Li & Ei). exists i. split; [|rewrite HQ; now rewrite Ei].
    rewrite (perm_lenN _ _ Pl), lenN_sliceN in Li by lia. auto.
  - intros s p Hs E. destruct (C37_predecessor_u64 w l k Hb a b s Hk Hs Hab Hbl) as (o & E' & Ho). rewrite E in E'. injection E' as <-. cbn in Ho. destruct Ho as (A & C & D). split; [auto|]. split.
    + destruct (C37_successor_u64 w l k Hb a b p Hk (Hin p A) Hab Hbl) as (o & -> & Ho). f_equal. apply (succ_unique p (sliceN a (b - a) l)); [auto|]. cbn. split; [auto|]. split; [lia|auto].
    + intros i x Ex Hx. apply D; [now apply (HI i)|auto].
  - intros s p Hs E. destruct (C37_successor_u64 w l k Hb a b s Hk Hs Hab Hbl) as (o & E' & Ho). rewrite E in E'. injection E' as <-. cbn in Ho. destruct Ho as (A & C & D). split; [auto|]. split.
    + destruct (C37_predecessor_u64 w l k Hb a b p Hk (Hin p A) Hab Hbl) as (o & -> & Ho). f_equal. apply (pred_unique p (sliceN a (b - a) l)); [auto|]. cbn. split; [auto|]. split; [lia|auto].
    + intros i x Ex Hx. apply D; [now apply (HI i)|auto].
Qed.
Example C144_ex :
  wm_built ex_wm (map (fun x => x mod 2 ^ 3) ex_seq) 3 /\
  wm_select_u64 ex_wm 1 5 = Ok (Some 4) /\ wm_get_u64 ex_wm 4 = Ok (Some 5) /\ wm_rank_u64 ex_wm 4 5 = Ok (Some 1) /\
  wm_predecessor_u64 ex_wm 1 6 4 = Ok (Some 2) /\ wm_quantile_u64 ex_wm 1 6 2 = Ok (Some 2) /\
  ef_successor PropsEF.ex_efv 10 = Ok (Some 30) /\ ef_rank PropsEF.ex_efv 10 = Ok 3 /\ ef_get PropsEF.ex_efv 3 = Ok (Some 30) /\ ef_delta PropsEF.ex_efv 3 = Ok (Some 21).
Proof. split; [apply built_slice; [lia|vm_compute; reflexivity]|]. repeat split; vm_compute; reflexivity. Qed.
