(** * Property C135, continued: level queries and the subtree iterator in release builds, called with closing parentheses. *)
From Verif Require Import Base Spec BaseFacts WordFacts BitVecModel BitVecProofs RsVecModel RsVecProofs RsVecSelect RsEqProofs RsIterModel RsIterProofs GenIterModel
  BpModel BpExcess BpLookup BpMmt BpSearch BpBlock BpTreeSpec BpTreeFacts BpTreeProofs IterFacts PropsBp PropsBitSet BpReleaseModel PropsBpRelease PropsUnbalanced BpNodeReleaseModel PropsBpNodeRelease.

(** One level up from the excess behind [c]: the next opening parenthesis of that level. *)
Lemma fwd_level l c o : is_fwd l c 1 o -> forall k, o = Some k <->
  c < k /\ nthN false l k = true /\ excess_before l k = excess_before l (c + 1) /\ forall m, c < m -> m < k -> nthN false l m = true -> excess_before l m <> excess_before l (c + 1).
Proof.
  intros H1 k. split.
  - intros ->. cbn [is_fwd] in H1. destruct H1 as (K1 & K2 & K3 & K4).
    assert (Up : forall m, c + 1 <= m -> m <= k -> (excess_before l m <= excess_before l (c + 1))%Z).
    { intros m M1 M2. destruct (Z.leb_spec (excess_before l m) (excess_before l (c + 1))) as [|Hm]; [auto|exfalso].
      destruct (ex_ivt l (c + 1) (m - c - 1) 1) as (j & J1 & J2); [replace (c + 1 + (m - c - 1)) with m by lia; lia|]. destruct (N.eq_dec j (c + 1)) as [->|]; [lia|]. apply (K4 (j - 1)); [lia|lia|]. replace (j - 1 + 1) with j by lia. lia. }
    pose proof (Up k ltac:(lia) ltac:(lia)) as Uk. rewrite (ex_succ l k) in K3 by auto. destruct (nthN false l k) eqn:Ek; cbn [paren] in K3; [|lia]. split; [lia|]. split; [auto|]. split; [lia|].
    intros m M1 M2 M3 M4. apply (K4 m); [lia|lia|]. rewrite (open_excess l m M3). lia.
  - intros (K1 & K2 & K3 & K4). pose proof (any_in l k K2). apply (is_fwd_fun l c 1); [auto|]. cbn [is_fwd]. rewrite (open_excess l k K2). split; [lia|]. split; [auto|]. split; [lia|]. intros m M1 M2 M3.
    assert (Low : forall m, c + 1 <= m -> m <= k -> (excess_before l m <= excess_before l (c + 1))%Z).
    { intros m'. pattern m'. apply N_ind1; clear m'; [lia|]. intros m' IHm L1 L2'. destruct (N.eq_dec (c + 1) (m' + 1)) as [Eq|]; [rewrite <- Eq; lia|]. specialize (IHm ltac:(lia) ltac:(lia)). rewrite (ex_succ l m') by lia. destruct (nthN false l m') eqn:Em; cbn [paren]; [|lia]. specialize (K4 m' ltac:(lia) ltac:(lia) Em). lia. }
    specialize (Low (m + 1) ltac:(lia) ltac:(lia)). lia.
Qed.
(** The last closing parenthesis before [i] that returns to the level of [i]. *)
Lemma bwd_level l i o : i <= lenN l -> is_bwd l i 1 o -> forall c, o = Some c <->
  c < i /\ nthN false l c = false /\ excess_before l (c + 1) = excess_before l i /\ forall c', c < c' -> c' < i -> nthN false l c' = false -> excess_before l (c' + 1) <> excess_before l i.
Proof.
  intros Hi H c. split.
  - intros ->. cbn [is_bwd] in H. destruct H as (A & C & D). assert (Up : (excess_before l (c + 1) <= excess_before l i)%Z).
    { destruct (Z.leb_spec (excess_before l (c + 1)) (excess_before l i)) as [|Hm]; [auto|exfalso]. destruct (N.eq_dec (c + 1) i) as [Eq|]; [rewrite Eq in Hm; lia|].
      destruct (ex_ivt l (c + 1) (i - c - 1) (excess_before l i + 1 - excess_before l (c + 1))) as (j & J1 & J2); [replace (c + 1 + (i - c - 1)) with i by lia; lia|].
      destruct (N.eq_dec j i) as [->|]; [lia|]. apply (D j); [lia|lia|lia]. }
    assert (Hc0 : nthN false l c = false) by (rewrite ex_succ in Up by lia; destruct (nthN false l c); cbn [paren] in Up; [lia|auto]).
    split; [auto|]. split; [auto|]. split; [rewrite ex_succ, Hc0 by lia; cbn [paren]; lia|]. intros c' C1 C2 C3 C4. apply (D c' C1 C2). rewrite ex_succ, C3 in C4 by lia. cbn [paren] in C4. lia.
  - intros (A & C & E & D). apply (is_bwd_fun l i 1); [auto|]. cbn [is_bwd]. rewrite ex_succ, C in E by lia. cbn [paren] in E. split; [auto|]. split; [lia|]. intros k K1 K2 K3.
    assert (Up : forall m, k <= m -> m <= i -> (excess_before l i < excess_before l m)%Z).
    { intros m. pattern m. apply N_ind1; clear m; [intros; assert (k = 0) by lia; lia|]. intros m IH M1 M2. destruct (N.eq_dec k (m + 1)) as [<-|]; [lia|]. specialize (IH ltac:(lia) ltac:(lia)).
      destruct (nthN false l m) eqn:Em; [rewrite ex_succ, Em by lia; cbn [paren]; lia|]. specialize (D m ltac:(lia) ltac:(lia) Em). rewrite ex_succ, Em in * by lia. cbn [paren] in *. lia. }
    specialize (Up i ltac:(lia) ltac:(lia)). lia.
Qed.

Lemma count_takeN_mono b l x y : x <= y -> count b (takeN x l) <= count b (takeN y l).
Proof.
  intros H. destruct (N.leb_spec (lenN l) x) as [L|L]; [rewrite !takeN_all by lia; lia|]. rewrite <- (takeN_dropN x l) at 2. rewrite takeN_app_ge by (rewrite lenN_takeN; lia). rewrite count_app. lia.
Qed.
Lemma opening_before l x y : x <= y -> nthN false l x = true -> (count true (takeN x l) < count true (takeN y l) <-> x < y).
Proof.
  intros Hxy Hx. pose proof (any_in l x Hx) as L. split; [intros H; destruct (N.eq_dec x y) as [->|]; lia|]. intros H. pose proof (count_takeN_mono true l (x + 1) y ltac:(lia)) as M. rewrite (takeN_succ false) in M by auto. rewrite count_app, Hx in M. cbn [count Bool.eqb] in M. lia.
Qed.

Theorem C135_closing_levels lk lkr B l bt node : rel_lookup lk lkr -> aligned lk B -> built_from B l bt -> lenN l < 2 ^ 57 -> nthN true l node = false ->
  (exists o, bp_level_next_rel lkr B bt node = Ok o /\ forall k, o = Some k <-> exists j, next_closing l node j /\ j < k /\ nthN false l k = true /\
     excess_before l k = excess_before l (j + 1) /\ forall m, j < m -> m < k -> nthN false l m = true -> excess_before l m <> excess_before l (j + 1)) /\
  (exists o, bp_level_prev_rel lkr B bt node = Ok o /\ forall m, o = Some m <-> exists c t, c < node /\ nthN false l c = false /\ excess_before l (c + 1) = excess_before l node /\
     (forall c', c < c' -> c' < node -> nthN false l c' = false -> excess_before l (c' + 1) <> excess_before l node) /\ tree_at l m t /\ c + 1 = m + lenN (enc t)) /\
  (exists r, bp_subtree_list_rel lkr B bt node = Ok r /\ forall i x, getN r i = Some x <-> exists j, next_closing l node j /\ node < x /\ x < j /\ nthN false l x = true /\
     count true (takeN x l) = count true (takeN node l) + i).
Proof.
  intros Hrl Hal Hb Hbig Hi. pose proof (closing_in l node Hi) as Hin. pose proof (any_len B l bt Hb) as Hlen.
  destruct (rel_close_closing lk lkr B l bt node Hrl Hb Hbig Hi) as (c & Ec & Hc & Hclt). repeat apply conj.
  - unfold bp_level_next_rel. rewrite Ec. cbn [bind]. destruct c as [c|].
    + destruct (C105_fwd lk lkr B l bt c 1 Hrl Hb Hbig ltac:(unfold in_i64; lia)) as (o & E & Ho). exists o. split; [auto|]. intros k. rewrite (fwd_level l c o Ho k). split.
      * intros H. exists c. split; [now apply Hc|auto].
      * intros (j & Hj & H). apply Hc in Hj. injection Hj as <-. auto.
    + exists None. split; [auto|]. intros k. split; [discriminate|]. intros (j & Hj & _). apply Hc in Hj. discriminate.
  - unfold bp_level_prev_rel. destruct (C105_bwd lk lkr B l bt node 1 Hrl Hb Hal Hbig ltac:(unfold in_i64; lia) Hin) as (o & E & Ho). rewrite E. cbn [bind]. pose proof (bwd_level l node o ltac:(lia) Ho) as Hl. destruct o as [d|].
    + destruct (proj1 (Hl d) eq_refl) as (D1 & D2 & D3 & D4). destruct (rel_open_closing lk lkr B l bt d Hrl Hal Hb Hbig) as (o & E' & Ho'); [now rewrite nth_def by lia|]. exists o. split; [auto|]. intros m. rewrite Ho'. split.
      * intros (t & Ht & Et). exists d, t. auto 10.
      * intros (c' & t & C1 & C2 & C3 & C4 & Ht & Et). assert (Some d = Some c') as Eq by (apply Hl; auto). injection Eq as <-. exists t. auto.
    + exists None. split; [auto|]. intros m. split; [discriminate|]. intros (c' & t & C1 & C2 & C3 & C4 & _). assert (@None N = Some c') by (apply Hl; auto). discriminate.
  - unfold bp_subtree_list_rel. cbv zeta. rewrite (np_rank1 B l bt Hb). cbn [bind]. rewrite Ec. cbn [bind]. rewrite (np_rank1 B l bt Hb). cbn [bind]. unfold rank_spec.
    destruct (built_good _ _ _ Hb) as (bv & G & Hl & Hlb). destruct (sel_new_ok false bv (bp_vec bt) (bg_wf _ _ _ G) (bg_rs _ _ _ G)) as (it & E1 & HR). rewrite E1. cbn [bind]. unfold posz in HR. cbn [negb] in HR. rewrite Hl in HR.
    set (e := match c with Some c => c | None => node end). set (n0 := count true (takeN node l)). set (n1 := count true (takeN e l)).
    assert (Hle : n0 <= n1) by (apply count_takeN_mono; unfold e; destruct c as [c|]; [specialize (Hclt c eq_refl)|]; lia).
    assert (Hn1 : n1 <= lenN l) by (unfold n1; pose proof (count_le true (takeN e l)) as Q; rewrite lenN_takeN in Q; lia).
    assert (Eu : usub n1 n0 = n1 - n0). { unfold usub. destruct (N.leb_spec n0 n1); [reflexivity|lia]. }
    rewrite Eu. exists (takeN (n1 - n0) (dropN n0 (positions true l))). split.
    + eapply (collect_ok _ _ (take_step false bv (bp_vec bt) (bg_wf _ _ _ G) (bg_rs _ _ _ G))).
      * eexists _, (positions true l). cbn [fst snd]. split; [exact HR|]. split; reflexivity.
      * unfold bp_fuel. rewrite Hlen. assert (Q : lenN (takeN (n1 - n0) (dropN n0 (positions true l))) <= lenN l) by (rewrite lenN_takeN; lia). unfold lenN in *. lia.
    + intros i x. change (takeN (n1 - n0) (dropN n0 (positions true l))) with (sliceN n0 (n1 - n0) (positions true l)). rewrite getN_sliceN. destruct (N.ltb_spec i (n1 - n0)) as [Li|Li].
      * rewrite getN_positions. cbn [negb]. unfold n0, n1, e in *. destruct c as [c|]; [|lia]. specialize (Hclt c eq_refl). split.
        -- intros (X1 & X2 & X3). exists c. split; [now apply Hc|]. assert (node < x). { destruct (N.ltb_spec node x) as [|A]; [auto|]. destruct (N.eq_dec x node) as [->|]; [rewrite <- nth_def in X2 by auto; congruence|]. pose proof (proj2 (opening_before l x node ltac:(lia) X2)). lia. }
           split; [auto|]. split; [|auto]. destruct (N.ltb_spec x c) as [|A]; [auto|]. pose proof (count_takeN_mono true l c x A). lia.
        -- intros (j & _ & _ & _ & X2 & X3). split; [now apply any_in|auto].
      * split; [discriminate|]. intros (j & Hj & X1 & X2 & X3 & X4). exfalso. apply Hc in Hj. subst c. unfold n0, n1, e in *. pose proof (proj2 (opening_before l x j ltac:(lia) X3) X2). lia.
Qed.
(** "(()())": the closing parenthesis at 2; the next unmatched one is at 5. *)
Example C135_closing_ex : next_closing [true; true; false; true; false; false] 2 5 /\
  (let* t := mk 4 [true; true; false; true; false; false] in
   let* a := bp_level_next_rel lookup8_rel 4 t 2 in let* b := bp_level_prev_rel lookup8_rel 4 t 5 in let* c := bp_subtree_list_rel lookup8_rel 4 t 2 in Ok (a, b, c)) = Ok (None, Some 3, [3]).
Proof. split; [exists [true; true], [Node []], []; auto|]. vm_compute. auto. Qed.
