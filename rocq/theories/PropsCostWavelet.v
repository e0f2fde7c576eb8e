(** * Property C115: how many rank queries the operations of a wavelet matrix make. *)
From Verif Require Import Base Spec BaseFacts BitVecModel RsVecModel WaveletModel WaveletQuery PropsWavelet CostWaveletModel.

Lemma pay_ok n q : n <= q -> pay n q = Ok (q - n).
Proof. intros H. unfold pay. destruct (N.leb_spec n q); [reflexivity|lia]. Qed.
Lemma lenN_cons'' {A} (x : A) l : lenN (x :: l) = lenN l + 1.
Proof. unfold lenN. cbn [length]. lia. Qed.

Lemma reconstruct_cut {T} (target : N -> T -> res T) ds : forall i t q, lenN ds <= q ->
  wm_reconstruct_cut target ds i t q = wm_reconstruct target ds i t.
Proof.
  induction ds as [|d ds IH]; intros i t q H; [reflexivity|]. rewrite lenN_cons'' in H. cbn [wm_reconstruct_cut wm_reconstruct].
  destruct (rs_get_unchecked d i) as [bit| |]; try reflexivity. cbn [bind]. destruct (target bit t) as [t'| |]; try reflexivity. cbn [bind].
  rewrite pay_ok by lia. cbn [bind].
  destruct (if bit =? 0 then rs_rank0 d i else let* r := rs_rank1 d i in Ok (rrank0 d + r)); try reflexivity. cbn [bind]. apply IH. lia.
Qed.
Lemma rank_cut rd ds : forall level a b q, 2 * lenN ds <= q -> wm_rank_cut rd ds level a b q = wm_rank_loop rd ds level a b.
Proof.
  induction ds as [|d ds IH]; intros level a b q H; [reflexivity|]. rewrite lenN_cons'' in H. cbn [wm_rank_cut wm_rank_loop].
  destruct (rd level) as [bit| |]; try reflexivity. cbn [bind]. rewrite pay_ok by lia. cbn [bind].
  destruct (wm_down d bit a); try reflexivity. cbn [bind]. destruct (wm_down d bit b); try reflexivity. cbn [bind]. apply IH. lia.
Qed.
Lemma quantile_cut {T} (wr : N -> N -> T -> res T) ds : forall level a b k prefix q, 2 * lenN ds <= q ->
  wm_quantile_cut wr ds level a b k prefix q = wm_quantile_loop wr ds level a b k prefix.
Proof.
  induction ds as [|d ds IH]; intros level a b k prefix q H; [reflexivity|]. rewrite lenN_cons'' in H. cbn [wm_quantile_cut wm_quantile_loop].
  rewrite pay_ok by lia. cbn [bind].
  destruct (rs_rank0 d a) as [zs| |]; try reflexivity. cbn [bind]. destruct (rs_rank0 d b) as [ze| |]; try reflexivity. cbn [bind].
  destruct (sub ze zs) as [z| |]; try reflexivity. cbn [bind]. destruct (k <? z).
  - destruct (wr 0 level prefix); try reflexivity. cbn [bind]. apply IH. lia.
  - destruct (wr 1 level prefix); try reflexivity. cbn [bind]. destruct (sub k z); try reflexivity. cbn [bind].
    destruct (sub a zs); try reflexivity. cbn [bind]. destruct (sub b ze); try reflexivity. cbn [bind]. apply IH. lia.
Qed.
Lemma lenN_skip {A} (w : list A) n : lenN (skipn (N.to_nat n) w) = lenN w - n.
Proof. unfold lenN. rewrite skipn_length. lia. Qed.

(** ** Predecessor and successor: two queries for each level on the way down, two for each level of the quantile search. *)
Section Neighbour.
Context {T : Type}.
Variable rd : N -> res N.
Variable wr : N -> N -> T -> res T.
Variable qt : N -> N -> N -> N -> T -> res T.
Variable qc : N -> N -> N -> N -> T -> N -> res T.
Variable k : N.
Hypothesis Hq : forall a b i start t q, 2 * (k - start) <= q -> qc a b i start t q = qt a b i start t.

Lemma pred_cut ds : forall level a b value fb q, level + lenN ds = k -> N.max (2 * k + 2) (4 * k - 2) <= q + 2 * level ->
  wm_pred_cut rd wr qc ds level a b value fb q = wm_pred_loop rd wr qt ds level a b value fb.
Proof using Hq.
  induction ds as [|d ds IH]; intros level a b value fb q Hk H; [reflexivity|]. rewrite lenN_cons'' in Hk. cbn [wm_pred_cut wm_pred_loop].
  destruct (rd level) as [bit| |]; try reflexivity. cbn [bind]. rewrite pay_ok by lia. cbn [bind].
  destruct (rs_rank0 d a) as [zs| |]; try reflexivity. cbn [bind]. destruct (rs_rank0 d b) as [ze| |]; try reflexivity. cbn [bind].
  destruct (sub ze zs) as [z| |]; try reflexivity. cbn [bind]. destruct (bit =? 0).
  - destruct (z =? 0).
    + destruct fb as [[[[l ra] rb] prefix]|]; [|reflexivity]. destruct (sub rb ra) as [m| |]; try reflexivity. cbn [bind].
      destruct (sub m 1); try reflexivity. cbn [bind]. destruct (wr 0 l prefix); try reflexivity. cbn [bind]. rewrite Hq by lia. reflexivity.
    + destruct (wr 0 level value); try reflexivity. cbn [bind]. apply IH; lia.
  - destruct (sub b a) as [m| |]; try reflexivity. cbn [bind]. destruct (z =? m).
    + destruct (sub m 1); try reflexivity. cbn [bind]. rewrite Hq by lia. reflexivity.
    + destruct (wr 1 level value); try reflexivity. cbn [bind]. destruct (sub a zs); try reflexivity. cbn [bind].
      destruct (sub b ze); try reflexivity. cbn [bind]. apply IH; lia.
Qed.
Lemma succ_cut ds : forall level a b value fb q, level + lenN ds = k -> N.max (2 * k + 2) (4 * k - 2) <= q + 2 * level ->
  wm_succ_cut rd wr qc ds level a b value fb q = wm_succ_loop rd wr qt ds level a b value fb.
Proof using Hq.
  induction ds as [|d ds IH]; intros level a b value fb q Hk H; [reflexivity|]. rewrite lenN_cons'' in Hk. cbn [wm_succ_cut wm_succ_loop].
  destruct (rd level) as [bit| |]; try reflexivity. cbn [bind]. rewrite pay_ok by lia. cbn [bind].
  destruct (rs_rank0 d a) as [zs| |]; try reflexivity. cbn [bind]. destruct (rs_rank0 d b) as [ze| |]; try reflexivity. cbn [bind].
  destruct (sub ze zs) as [z| |]; try reflexivity. cbn [bind]. destruct (bit =? 0).
  - destruct (z =? 0).
    + rewrite Hq by lia. reflexivity.
    + destruct (sub a zs); try reflexivity. cbn [bind]. destruct (sub b ze); try reflexivity. cbn [bind].
      destruct (wr 0 level value); try reflexivity. cbn [bind]. apply IH; lia.
  - destruct (sub b a) as [m| |]; try reflexivity. cbn [bind]. destruct (z =? m).
    + destruct fb as [[[[l ra] rb] prefix]|]; [|reflexivity].
      destruct (wr 1 l prefix); try reflexivity. cbn [bind]. rewrite Hq by lia. reflexivity.
    + destruct (wr 1 level value); try reflexivity. cbn [bind]. destruct (sub a zs); try reflexivity. cbn [bind].
      destruct (sub b ze); try reflexivity. cbn [bind]. apply IH; lia.
Qed.
End Neighbour.

Lemma partial_cut w a b i start t q : 2 * (lenN w - start) <= q -> wm_partial_quantile_cut w a b i start t q = wm_partial_quantile w a b i start t.
Proof. intros H. unfold wm_partial_quantile_cut, wm_partial_quantile. rewrite quantile_cut by (rewrite lenN_skip; lia). reflexivity. Qed.
Lemma partial_u64_cut w a b i start t q : 2 * (lenN w - start) <= q -> wm_partial_quantile_u64_cut w a b i start t q = wm_partial_quantile_u64 w a b i start t.
Proof. intros H. unfold wm_partial_quantile_u64_cut, wm_partial_quantile_u64. rewrite quantile_cut by (rewrite lenN_skip; lia). reflexivity. Qed.

Theorem C115_get w l k i : wm_built w l k ->
  wm_get_value_cut k w i = wm_get_value w i /\ wm_get_u64_cut k w i = wm_get_u64 w i.
Proof.
  intros Hb. pose proof (wo_bits _ _ _ (wm_built_ok _ _ _ Hb)) as Hk. split.
  - unfold wm_get_value_cut, wm_get_value, wm_get_value_unchecked.
    destruct ((wm_bits w =? 0) || (wm_len w <=? i)); [reflexivity|]. destruct (sub (wm_bits w) 1); try reflexivity. cbn [bind]. rewrite reconstruct_cut by lia.
    now destruct (wm_reconstruct _ w i _) as [[v lv]| |].
  - unfold wm_get_u64_cut. now rewrite reconstruct_cut by lia.
Qed.
Theorem C115_rank w l k a b : wm_built w l k ->
  (forall s, wm_rank_range_cut (2 * k) w a b s = wm_rank_range w a b s) /\
  (forall s, wm_rank_range_u64_cut (2 * k) w a b s = wm_rank_range_u64 w a b s).
Proof.
  intros Hb. pose proof (wo_bits _ _ _ (wm_built_ok _ _ _ Hb)) as Hk.
  split; intros s; [unfold wm_rank_range_cut|unfold wm_rank_range_u64_cut]; now rewrite rank_cut by lia.
Qed.
(** Minimum, maximum, median and access in sorted order are quantiles. *)
Theorem C115_quantile w l k a b i : wm_built w l k ->
  wm_quantile_query_cut (2 * k) w a b i = wm_quantile w a b i /\ wm_quantile_query_u64_cut (2 * k) w a b i = wm_quantile_u64 w a b i.
Proof.
  intros Hb. pose proof (wo_bits _ _ _ (wm_built_ok _ _ _ Hb)) as Hk.
  split; [unfold wm_quantile_query_cut; now rewrite partial_cut by lia|unfold wm_quantile_query_u64_cut; now rewrite partial_u64_cut by lia].
Qed.
Theorem C115_neighbours w l k a b : wm_built w l k -> let q := N.max (2 * k + 2) (4 * k - 2) in
  (forall s, wm_predecessor_cut q w a b s = wm_predecessor w a b s /\ wm_successor_cut q w a b s = wm_successor w a b s) /\
  (forall s, wm_predecessor_u64_cut q w a b s = wm_predecessor_u64 w a b s /\ wm_successor_u64_cut q w a b s = wm_successor_u64 w a b s).
Proof.
  intros Hb q. pose proof (wo_bits _ _ _ (wm_built_ok _ _ _ Hb)) as Hk.
  split; intros s; split;
    [unfold wm_predecessor_cut; rewrite (pred_cut _ _ (wm_partial_quantile w) _ k)
    |unfold wm_successor_cut; rewrite (succ_cut _ _ (wm_partial_quantile w) _ k)
    |unfold wm_predecessor_u64_cut; rewrite (pred_cut _ _ (wm_partial_quantile_u64 w) _ k)
    |unfold wm_successor_u64_cut; rewrite (succ_cut _ _ (wm_partial_quantile_u64 w) _ k)];
    try reflexivity; try (subst q; lia);
    intros a' b' i start t q' Hq; (apply partial_cut || apply partial_u64_cut); lia.
Qed.

(** None of the bounds can be lowered. *)
Theorem C115_tight : exists w l w1 l1, wm_built w l 3 /\ wm_built w1 l1 1 /\
  wm_get_u64_cut 2 w 1 = Diverge /\ wm_rank_range_u64_cut 5 w 0 2 4 = Diverge /\ wm_quantile_query_u64_cut 5 w 0 2 1 = Diverge /\
  wm_predecessor_u64_cut 9 w 0 2 4 = Diverge /\ wm_successor_u64_cut 9 w 2 4 3 = Diverge /\
  wm_predecessor_u64_cut 3 w1 0 1 1 = Diverge /\ wm_successor_u64_cut 3 w1 1 2 0 = Diverge.
Proof.
  destruct (wm_from_slice [3; 5; 2; 4] 3) as [w| |] eqn:E; [|vm_compute in E; discriminate..].
  destruct (wm_from_slice [0; 1] 1) as [w1| |] eqn:E1; [|vm_compute in E1; discriminate..].
  exists w. eexists. exists w1. eexists.
  split; [apply built_slice; [discriminate|exact E]|]. split; [apply built_slice; [discriminate|exact E1]|].
  vm_compute in E, E1. injection E as <-. injection E1 as <-. vm_compute. auto 10.
Qed.
Example C115_ex : match wm_from_slice [3; 5; 2; 4] 3 with
  | Ok w => wm_get_u64_cut 3 w 1 = Ok (Some 5) /\ wm_rank_range_u64_cut 6 w 0 4 4 = Ok (Some 1) /\ wm_quantile_query_cut 6 w 0 3 1 = Ok (Some (bv_of 3 3)) /\
      wm_predecessor_u64_cut 10 w 0 2 4 = Ok (Some 3) /\ wm_successor_cut 10 w 2 4 (bv_of 3 3) = Ok (Some (bv_of 3 4)) /\
      wm_predecessor_u64_cut 5 w 0 2 4 = Diverge
  | _ => False end.
Proof. vm_compute. auto 7. Qed.
