(** * Properties C21-C26 and C53: Elias-Fano vectors.

    All statements are about the vector returned by [ef_from_slice w data] for an arbitrary
    non-decreasing list of words and an arbitrary result [w < 64] of the floating point width
    computation. *)
From Verif Require Import Base Spec BaseFacts WordFacts BitVecModel BitVecProofs BitVecProofs2
  RsVecModel RsVecProofs RsVecSelect IterSpec IterFacts IterLazy RsIterModel RsIterProofs RsEqProofs PropsRsVec
  GenIterModel GenIterProofs EFModel EFProofs EFQuery EFIterProofs.

(** ** The empty vector *)
Lemma ef_empty w : exists u, ef_from_slice w [] = Ok (mkef u bv_new 0 0 0 0) /\ rs_good bv_new u.
Proof.
  unfold ef_from_slice. change (lenN (@nil N) =? 0) with true. cbn iota.
  destruct (rs_from_bit_vec_ok bv_new bv_new_wf) as (u & E & G). rewrite E. cbn [bind]. eauto.
Qed.
Lemma ef_built data w e : nondecreasing data -> Forall (fun x => x < U64) data -> w < 64 ->
  ef_from_slice w data = Ok e ->
  (data = [] /\ ef_n e = 0 /\ ef_zero e = 0 /\ rs_good bv_new (ef_upper e)) \/ (0 < lenN data /\ ef_good data w e).
Proof.
  intros Hs Hd Hw E. destruct (N.eq_dec (lenN data) 0) as [E0|E0].
  - left. destruct data; [|rewrite lenN_cons in E0; lia].
    destruct (ef_empty w) as (u & E' & Gu). rewrite E' in E. injection E as <-. auto.
  - right. split; [lia|]. destruct (ef_from_slice_ok data w) as (e' & E' & Ge); auto; [lia|]. congruence.
Qed.

(** ** C21 *)
Lemma windows_head a l : windows_sorted (a :: l) = true -> windows_sorted l = true /\ forall y, In y l -> a <= y.
Proof.
  revert a. induction l as [|b l IH]; intros a H; [split; [reflexivity|intros y []]|].
  cbn [windows_sorted] in H. apply andb_true_iff in H as [H1 H2]. split; [exact H2|].
  destruct (IH b H2) as [_ Hb]. intros y [<-|Hy]; [lia|]. specialize (Hb y Hy). lia.
Qed.
Lemma windows_nondecreasing l : windows_sorted l = true -> nondecreasing l.
Proof.
  induction l as [|a l IH]; intros H i j x y Hij Hx Hy.
  { apply getN_some_lt in Hx. change (lenN (@nil N)) with 0 in Hx. lia. }
  destruct (windows_head a l H) as [Hl Ha]. destruct (N.eq_dec j 0) as [->|Ej].
  - replace i with 0 in Hx by lia. rewrite Hx in Hy. injection Hy as ->. lia.
  - replace j with (j - 1 + 1) in Hy by lia. rewrite getN_cons_succ in Hy.
    destruct (N.eq_dec i 0) as [->|Ei].
    + assert (x = a) as -> by (cbn in Hx; congruence). apply Ha. eapply getN_In; eauto.
    + replace i with (i - 1 + 1) in Hx by lia. rewrite getN_cons_succ in Hx. apply (IH Hl (i - 1) (j - 1)); auto. lia.
Qed.
(** Construction succeeds on sorted input and panics on all other input. *)
Theorem C21_construction data w :
  Forall (fun x => x < 2 ^ 64) data -> w < 64 ->
  (nondecreasing data -> exists e, ef_from_slice w data = Ok e /\ ef_n e = lenN data) /\
  (~ nondecreasing data -> ef_from_slice w data = Panic).
Proof.
  intros Hd Hw. split.
  - intros Hs. destruct (N.eq_dec (lenN data) 0) as [E0|E0].
    + destruct data; [|rewrite lenN_cons in E0; lia]. destruct (ef_empty w) as (u & E & _). eauto.
    + destruct (ef_from_slice_ok data w) as (e & E & Ge); auto; [lia|]. exists e. split; auto. apply (eg_n _ _ _ Ge).
  - intros Hs. unfold ef_from_slice. destruct (N.eqb_spec (lenN data) 0) as [E0|E0].
    + destruct data; [|rewrite lenN_cons in E0; lia]. destruct Hs. now apply windows_nondecreasing.
    + destruct (windows_sorted data) eqn:Ew; [|reflexivity]. destruct Hs. now apply windows_nondecreasing.
Qed.
Theorem C21_get data w e i :
  nondecreasing data -> Forall (fun x => x < 2 ^ 64) data -> w < 64 -> ef_from_slice w data = Ok e ->
  ef_get e i = Ok (getN data i) /\ ef_select e i = Ok (getN data i).
Proof.
  intros Hs Hd Hw E. assert (H : ef_get e i = Ok (getN data i)); [|unfold ef_select; auto].
  destruct (ef_built data w e Hs Hd Hw E) as [(-> & En & _ & _)|[Hne G]].
  - unfold ef_get. rewrite En. destruct (N.leb_spec 0 i); [|lia]. now rewrite getN_none by (cbn; lia).
  - now apply (ef_get_ok data w e).
Qed.
(** A concrete vector: duplicates, a gap, an offset, an empty upper block and a full one. *)
Definition ex_ef : list N := [7; 7; 9; 30; 30; 31; 90].
Lemma ex_ef_ok : nondecreasing ex_ef /\ Forall (fun x => x < 2 ^ 64) ex_ef /\ ef_width ex_ef = 4.
Proof. split; [now apply windows_nondecreasing|]. split; [repeat constructor|reflexivity]. Qed.
Definition ef_dummy : ef := mkef (mkrs [] 0 [] [] [] 0 0) bv_new 0 0 0 0.
Definition ex_efv : ef := match ef_from_slice 4 ex_ef with Ok e => e | _ => ef_dummy end.
Example C21_ex :
  ef_from_slice 4 ex_ef = Ok ex_efv /\ ef_get ex_efv 0 = Ok (Some 7) /\ ef_get ex_efv 5 = Ok (Some 31) /\
  ef_get ex_efv 6 = Ok (Some 90) /\ ef_get ex_efv 7 = Ok None /\ ef_from_slice 2 [3; 2] = Panic.
Proof. vm_compute. repeat split. Qed.

(** ** C22: the largest element not above the query. *)
Definition is_predecessor (l : list N) (q : N) (o : option N) : Prop :=
  match o with
  | Some x => In x l /\ x <= q /\ forall y, In y l -> y <= q -> y <= x
  | None => forall y, In y l -> q < y
  end.
Theorem C22_predecessor data w e q :
  nondecreasing data -> Forall (fun x => x < 2 ^ 64) data -> w < 64 -> ef_from_slice w data = Ok e -> q < 2 ^ 64 ->
  exists o, ef_predecessor e q = Ok o /\ is_predecessor data q o.
Proof.
  intros Hs Hd Hw E Hq. destruct (ef_built data w e Hs Hd Hw E) as [(-> & En & Ez & _)|[Hne G]].
  - exists None. unfold ef_predecessor. rewrite En. cbn [N.eqb]. rewrite orb_true_r. split; auto. intros y [].
  - destruct (N.le_gt_cases (nthN 0 data 0) q) as [H|H].
    + rewrite (ef_predecessor_ok data w e Hs Hd Hne Hw G q H). eexists. split; [reflexivity|].
      set (c := cnt (fun k => nthN 0 data k <=? q) (lenN data)).
      assert (Hth : forall k, k < lenN data -> (nthN 0 data k <=? q) = (k <? c)).
      { intros k Hk. apply (cnt_threshold (fun k => nthN 0 data k <=? q) (lenN data)); auto.
        intros i j Hij Hj Hp. pose proof (nondecreasing_nth data Hs i j ltac:(lia) Hj). lia. }
      assert (Hc1 : c <= lenN data) by apply cnt_le.
      assert (Hc0 : 0 < c). { specialize (Hth 0 Hne). lia. }
      split; [apply In_nthN; lia|]. split; [specialize (Hth (c - 1)); lia|].
      intros y Hy Hyq. apply In_getN in Hy as (k & Hk & Ek). apply getN_Some_inv in Ek as [_ Ek].
      specialize (Ek 0). subst y. specialize (Hth k Hk). apply nondecreasing_nth; auto; lia.
    + exists None. unfold ef_predecessor. rewrite (eg_zero _ _ _ G).
      destruct (N.ltb_spec q (nthN 0 data 0)); [|lia]. split; auto.
      intros y Hy. apply In_getN in Hy as (k & Hk & Ek). apply getN_Some_inv in Ek as [_ Ek]. specialize (Ek 0). subst y.
      pose proof (nondecreasing_nth data Hs 0 k ltac:(lia) Hk). lia.
Qed.
Example C22_ex :
  ef_predecessor ex_efv 6 = Ok None /\ ef_predecessor ex_efv 7 = Ok (Some 7) /\ ef_predecessor ex_efv 29 = Ok (Some 9) /\
  ef_predecessor ex_efv 30 = Ok (Some 30) /\ ef_predecessor ex_efv 89 = Ok (Some 31) /\
  ef_predecessor ex_efv (2 ^ 64 - 1) = Ok (Some 90).
Proof. vm_compute. repeat split. Qed.

(** ** C23: the smallest element not below the query. *)
Definition is_successor (l : list N) (q : N) (o : option N) : Prop :=
  match o with
  | Some x => In x l /\ q <= x /\ forall y, In y l -> q <= y -> x <= y
  | None => forall y, In y l -> y < q
  end.
Theorem C23_successor data w e q :
  nondecreasing data -> Forall (fun x => x < 2 ^ 64) data -> w < 64 -> ef_from_slice w data = Ok e -> q < 2 ^ 64 ->
  exists o, ef_successor e q = Ok o /\ is_successor data q o.
Proof.
  intros Hs Hd Hw E Hq. destruct (ef_built data w e Hs Hd Hw E) as [(-> & En & Ez & _)|[Hne G]].
  - exists None. unfold ef_successor. rewrite En. cbn [N.eqb]. rewrite orb_true_r. split; auto. intros y [].
  - destruct (N.le_gt_cases q (nthN 0 data (lenN data - 1))) as [H|H].
    + rewrite (ef_successor_ok data w e Hs Hd Hne Hw G q H). eexists. split; [reflexivity|].
      set (c := cnt (fun k => nthN 0 data k <? q) (lenN data)).
      assert (Hth : forall k, k < lenN data -> (nthN 0 data k <? q) = (k <? c)).
      { intros k Hk. apply (cnt_threshold (fun k => nthN 0 data k <? q) (lenN data)); auto.
        intros i j Hij Hj Hp. pose proof (nondecreasing_nth data Hs i j ltac:(lia) Hj). lia. }
      assert (Hc1 : c < lenN data). { specialize (Hth (lenN data - 1)). lia. }
      split; [apply In_nthN; lia|]. split; [specialize (Hth c); lia|].
      intros y Hy Hyq. apply In_getN in Hy as (k & Hk & Ek). apply getN_Some_inv in Ek as [_ Ek].
      specialize (Ek 0). subst y. specialize (Hth k Hk). apply nondecreasing_nth; auto; lia.
    + exists None. unfold ef_successor. rewrite (eg_max _ _ _ G).
      destruct (N.ltb_spec (nthN 0 data (lenN data - 1)) q); [|lia]. split; auto.
      intros y Hy. apply In_getN in Hy as (k & Hk & Ek). apply getN_Some_inv in Ek as [_ Ek]. specialize (Ek 0). subst y.
      pose proof (nondecreasing_nth data Hs k (lenN data - 1) ltac:(lia) ltac:(lia)). lia.
Qed.
Example C23_ex :
  ef_successor ex_efv 0 = Ok (Some 7) /\ ef_successor ex_efv 8 = Ok (Some 9) /\ ef_successor ex_efv 30 = Ok (Some 30) /\
  ef_successor ex_efv 32 = Ok (Some 90) /\ ef_successor ex_efv 91 = Ok None.
Proof. vm_compute. repeat split. Qed.

(** ** C24 *)
Lemma cnt_filter (f : N -> bool) (l : list N) : cnt (fun k => f (nthN 0 l k)) (lenN l) = lenN (filter f l).
Proof.
  induction l as [|a l IH] using rev_ind; [reflexivity|].
  rewrite lenN_app, filter_app, lenN_app, <- IH. change (lenN [a]) with 1. rewrite cnt_succ. f_equal.
  - apply cnt_ext. intros k Hk. rewrite nthN_app. now destruct (N.ltb_spec k (lenN l)); [|lia].
  - rewrite nthN_app, N.ltb_irrefl, N.sub_diag. change (nthN 0 [a] 0) with a. cbn [filter]. now destruct (f a).
Qed.
Theorem C24_rank data w e q :
  nondecreasing data -> Forall (fun x => x < 2 ^ 64) data -> w < 64 -> ef_from_slice w data = Ok e -> q < 2 ^ 64 ->
  ef_rank e q = Ok (lenN (filter (fun x => x <? q) data)).
Proof.
  intros Hs Hd Hw E Hq. destruct (ef_built data w e Hs Hd Hw E) as [(-> & En & Ez & _)|[Hne G]].
  - unfold ef_rank. rewrite En. cbn [N.eqb]. now rewrite orb_true_r.
  - rewrite (ef_rank_ok data w e Hs Hd Hne Hw G q). now rewrite <- (cnt_filter (fun x => x <? q)).
Qed.
Example C24_ex :
  ef_rank ex_efv 7 = Ok 0 /\ ef_rank ex_efv 8 = Ok 2 /\ ef_rank ex_efv 30 = Ok 3 /\ ef_rank ex_efv 31 = Ok 5 /\
  ef_rank ex_efv 90 = Ok 6 /\ ef_rank ex_efv 91 = Ok 7.
Proof. vm_compute. repeat split. Qed.

(** ** C25 *)
Theorem C25_delta data w e i :
  nondecreasing data -> Forall (fun x => x < 2 ^ 64) data -> w < 64 -> ef_from_slice w data = Ok e ->
  ef_delta e i = Ok (match getN data i with
                     | None => None
                     | Some x => if i =? 0 then Some x
                                 else match getN data (i - 1) with Some y => Some (x - y) | None => None end
                     end).
Proof.
  intros Hs Hd Hw E. destruct (ef_built data w e Hs Hd Hw E) as [(-> & En & Ez & _)|[Hne G]].
  - unfold ef_delta. rewrite En. destruct (N.leb_spec 0 i); [|lia]. now rewrite getN_none by (cbn; lia).
  - rewrite (ef_delta_ok data w e Hs Hd Hne Hw G i). f_equal. destruct (getN data i) as [x|] eqn:Ex; auto. cbn [option_map].
    destruct (N.eqb_spec i 0); auto. apply getN_some_lt in Ex. now rewrite (getN_ok 0 data (i - 1)) by lia.
Qed.
Example C25_ex :
  map (ef_delta ex_efv) [0; 1; 2; 3; 4; 5; 6; 7] =
  [Ok (Some 7); Ok (Some 0); Ok (Some 2); Ok (Some 21); Ok (Some 0); Ok (Some 1); Ok (Some 59); Ok None].
Proof. vm_compute. reflexivity. Qed.

(** ** C26 and C53: iterators. *)
(** The iterators reachable from the initial one with the elements that remain. *)
Inductive ei_reach (e : ef) (data : list N) : ef_iter -> N * list N -> Prop :=
| ei_reach_new it : ef_iter_new e = Ok it -> ei_reach e data it (0, data)
| ei_reach_step it s op it' s' o : ei_reach e data it s ->
    lazy_step s op = Ok (s', o) -> ei_step e it op = Ok (it', o) -> ei_reach e data it' s'.

Section Iter.
Variables (data : list N) (w : N) (e : ef).
Hypothesis Hs : nondecreasing data.
Hypothesis Hd : Forall (fun x => x < 2 ^ 64) data.
Hypothesis Hw : w < 64.
Hypothesis E : ef_from_slice w data = Ok e.
Hypothesis Hn : lenN data < 2 ^ 64.
(** Both kinds of vectors at once. *)
Definition ei_RR (it : ef_iter) (s : N * list N) : Prop :=
  (data = [] /\ s = (0, []) /\ ei_R0 e it) \/
  (0 < lenN data /\ ei_R data w e it (snd s) /\ gi_index (ei_gi it) = fst s).
Lemma ei_RR_new : exists it, ef_iter_new e = Ok it /\ ei_RR it (0, data).
Proof using Hs Hd Hw E Hn.
  destruct (ef_built data w e Hs Hd Hw E) as [(Ed & En & Ez & G)|[Hne G]].
  - destruct (ef_iter_new_empty e G En) as (it & Ei & R). exists it. split; auto. left. rewrite Ed. auto.
  - destruct (ef_iter_new_ok data w e Hs Hd Hne Hw G Hn) as (it & Ei & R & I). exists it. split; auto. right. auto.
Qed.
Lemma ei_RR_step it s op : ei_RR it s ->
  match lazy_step s op with
  | Ok (s', o) => exists it', ei_step e it op = Ok (it', o) /\ ei_RR it' s'
  | r => ei_step e it op = Panic /\ r = Panic
  end.
Proof using Hs Hd Hw E Hn.
  destruct (ef_built data w e Hs Hd Hw E) as [(Ed & En & Ez & G)|[Hne G]]; intros [(Ed' & -> & R)|(Hne' & R & I)];
    try (exfalso; match goal with H : data = [], H' : 0 < lenN data |- _ => rewrite H in H'; cbn in H'; lia end).
  - pose proof (ei_step_empty e G En it op R) as H.
    destruct (lazy_step (0, []) op) as [[[f v] o]| |] eqn:El; auto. destruct H as (it' & H1 & H2 & -> & ->).
    exists it'. split; auto. left. auto.
  - destruct s as [f v]. cbn [fst snd] in *. pose proof (ei_step_exact data w e Hs Hd Hne Hw G Hn it v op R) as H.
    rewrite I in H. destruct (lazy_step (f, v) op) as [[[f' v'] o]| |] eqn:El; auto. destruct H as (it' & H1 & H2 & H3).
    exists it'. split; auto. right. auto.
Qed.
Lemma ei_RR_run ops : forall it s, ei_RR it s -> iter_run (ei_step e) it ops = iter_run lazy_step s ops.
Proof using Hs Hd Hw E Hn.
  induction ops as [|op ops IH]; intros it s R; [reflexivity|]. cbn [iter_run].
  pose proof (ei_RR_step it s op R) as H. destruct (lazy_step s op) as [[s' o]| |].
  - destruct H as (it' & -> & R'). cbn [bind]. now rewrite (IH it' s' R').
  - destruct H as [-> _]. reflexivity.
  - destruct H as [_ [=]].
Qed.
Lemma ei_reach_RR it s : ei_reach e data it s -> ei_RR it s.
Proof using Hs Hd Hw E Hn.
  induction 1 as [it H|it s op it' s' o H IH H1 H2].
  - destruct ei_RR_new as (it' & H1 & H2). congruence.
  - pose proof (ei_RR_step it s op IH) as H3. rewrite H1 in H3. destruct H3 as (it2 & H3 & H4). congruence.
Qed.

(** The exact contract, for all call sequences with all arguments. *)
Theorem C53_ef_iter ops :
  exists it, ef_iter_new e = Ok it /\ iter_run (ei_step e) it ops = iter_run lazy_step (0, data) ops.
Proof using Hs Hd Hw E Hn. destruct ei_RR_new as (it & H1 & H2). exists it. split; auto. now apply ei_RR_run. Qed.

(** The standard contract where [nth] and [nth_back] stay inside. *)
Theorem C26_iter ops : skips_inside true true data ops ->
  exists it, ef_iter_new e = Ok it /\ iter_run (ei_step e) it ops = Ok (iter_spec_run data ops).
Proof using Hs Hd Hw E Hn.
  intros H. destruct (C53_ef_iter ops) as (it & H1 & H2). exists it. split; auto. rewrite H2.
  apply lazy_standard; auto.
Qed.

(** [min] is the first remaining element; [last] and [max] return the last remaining element
    reduced by the first element of the vector. *)
Theorem C53_last it f v : ei_reach e data it (f, v) ->
  ei_min e it = Ok (getN v 0) /\ ei_count it = lenN v /\
  ei_last e it = Ok (match getN (rev v) 0 with Some x => Some (x - nthN 0 data 0) | None => None end) /\
  ei_max e it = ei_last e it.
Proof using Hs Hd Hw E Hn.
  intros H. apply ei_reach_RR in H.
  destruct (ef_built data w e Hs Hd Hw E) as [(Ed & En & Ez & G)|[Hne G]]; destruct H as [(Ed' & Es & R)|(Hne' & R & I)];
    try (exfalso; match goal with H : data = [], H' : 0 < lenN data |- _ => rewrite H in H'; cbn in H'; lia end).
  - injection Es as -> ->. pose proof (ei_step_empty e G En it INext R) as (it' & H1 & _).
    cbn [ei_step] in H1. unfold ei_min. destruct (ei_next e it) as [[it2 o]| |]; try discriminate. cbn [bind] in *.
    injection H1 as -> ->. destruct R as [R _]. unfold ei_count, ei_len, ei_last, ei_max. unfold ei_last. rewrite R. auto.
  - cbn [fst snd] in *. rewrite (ei_min_ok data w e Hs Hd Hne Hw G Hn it v R).
    rewrite (ei_last_ok data w e Hs Hd Hne Hw G Hn it v R). repeat split; auto.
    + unfold ei_count, ei_len. rewrite (ei_len_v data w e Hs Hd Hne Hw G Hn it v R). apply (gi_len_ok (lenN data)); auto. apply R.
    + unfold ei_max. apply (ei_last_ok data w e Hs Hd Hne Hw G Hn it v R).
Qed.
End Iter.

Definition ex_efi : ef_iter :=
  match ef_iter_new ex_efv with Ok it => it | _ => mkei (mkit 0 None 0 0 0 0) (mkgi 0 None) end.
Example C26_ex :
  ef_iter_new ex_efv = Ok ex_efi /\
  iter_run (ei_step ex_efv) ex_efi [INext; INextBack; INth 1; ILen; INthBack 1; INext; INextBack; ILen] =
    Ok [OItem (Some 7); OItem (Some 90); OItem (Some 9); OLen 3; OItem (Some 30); OItem (Some 30); OItem None; OLen 0].
Proof. vm_compute. auto. Qed.
Example C53_ex :
  iter_run (ei_step ex_efv) ex_efi [INth 8; INext; INthBack 9; INextBack; INth 5; INext] =
    Ok [OItem None; OItem (Some 7); OItem None; OItem (Some 90); OItem None; OItem None] /\
  iter_run (ei_step ex_efv) ex_efi [INext; INth (2 ^ 64 - 1)] = Panic /\
  ei_last ex_efv ex_efi = Ok (Some 83) /\ ei_min ex_efv ex_efi = Ok (Some 7).
Proof. vm_compute. auto. Qed.

(** [last] and [max] of the vector [7; ...; 90] return 83. *)
Theorem C26_last_refuted :
  exists data w e it, nondecreasing data /\ Forall (fun x => x < 2 ^ 64) data /\ w = ef_width data /\
    ef_from_slice w data = Ok e /\ ef_iter_new e = Ok it /\ getN (rev data) 0 = Some 90 /\
    ei_last e it = Ok (Some 83) /\ ei_max e it = Ok (Some 83).
Proof.
  exists ex_ef, 4, ex_efv, ex_efi. destruct ex_ef_ok as (H1 & H2 & H3). repeat (split; [auto|]). vm_compute. auto 10.
Qed.

(** ** C54: with exact logarithms the assertion on the width holds and the upper vector is linear. *)
Theorem C54_width data :
  nondecreasing data -> Forall (fun x => x < 2 ^ 64) data -> lenN data < 2 ^ 64 -> 0 < lenN data ->
  ef_width data < 64 /\
  exists e, ef_from_slice (ef_width data) data = Ok e /\ rlen (ef_upper e) <= 3 * lenN data + 2.
Proof.
  intros Hs Hd Hn Hne.
  assert (Hlast : nthN 0 data (lenN data - 1) < 2 ^ 64).
  { rewrite Forall_forall in Hd. apply Hd, In_nthN. lia. }
  assert (Hw : ef_width data < 64).
  { unfold ef_width. set (bd := nthN 0 data (lenN data - 1) - nthN 0 data 0).
    assert (H1 : N.log2_up (N.max bd 2) <= 64).
    { change 64 with (N.log2_up (2 ^ 64)). apply N.log2_up_le_mono. lia. }
    assert (H2 : N.log2_up (lenN data + 2) <= N.log2_up (N.max (lenN data) 2) + 1).
    { assert (H2 : lenN data + 2 <= 2 ^ (N.log2_up (N.max (lenN data) 2) + 1)).
      { destruct (N.log2_up_spec (N.max (lenN data) 2)) as [_ H3]; [lia|]. rewrite N.add_1_r, N.pow_succ_r'. lia. }
      apply N.log2_up_le_mono in H2. rewrite N.log2_up_pow2 in H2 by lia. lia. }
    assert (H3 : 1 <= N.log2_up (N.max (lenN data) 2)).
    { change 1 with (N.log2_up 2). apply N.log2_up_le_mono. lia. }
    lia. }
  split; [exact Hw|]. destruct (ef_from_slice_ok data (ef_width data) Hs Hd Hne Hw) as (e & E & G).
  exists e. split; auto. destruct (eg_up _ _ _ G) as (bv & H1 & H2 & H3 & _). rewrite (good_len _ _ H2), H3.
  unfold eU, eW.
  assert (HB : (nthN 0 data (lenN data - 1) - nthN 0 data 0) / 2 ^ ef_width data <= 2 * lenN data); [|lia].
  destruct (N.eq_dec (lenN data) 1) as [E1|E1].
  { rewrite E1, N.sub_diag, N.div_0_l; [lia|apply N.pow_nonzero; lia]. }
  assert (E2 : N.max (lenN data) 2 = lenN data) by lia.
  set (bd := nthN 0 data (lenN data - 1) - nthN 0 data 0) in *.
  destruct (N.log2_up_spec (N.max bd 2)) as [_ H5]; [lia|].
  assert (H6 : 2 ^ N.log2_up (lenN data) < 2 * lenN data).
  { destruct (N.log2_up_spec (lenN data)) as [H6 _]; [lia|].
    assert (H0 : 0 < N.log2_up (lenN data)) by (apply N.log2_up_pos; lia).
    replace (N.log2_up (lenN data)) with (N.succ (N.pred (N.log2_up (lenN data)))) by lia.
    rewrite N.pow_succ_r'. lia. }
  assert (H7 : bd <= 2 ^ ef_width data * 2 ^ N.log2_up (lenN data)).
  { rewrite <- N.pow_add_r. transitivity (2 ^ N.log2_up (N.max bd 2)); [lia|]. apply N.pow_le_mono_r; [lia|].
    unfold ef_width. fold bd. rewrite E2. lia. }
  transitivity (2 ^ N.log2_up (lenN data)); [|lia].
  apply N.div_le_upper_bound; [apply N.pow_nonzero; lia|exact H7].
Qed.
Example C54_ex : ef_width ex_ef = 4 /\ rlen (ef_upper ex_efv) = 14 /\ ef_width [0; 2 ^ 64 - 1] = 63.
Proof. vm_compute. auto. Qed.
