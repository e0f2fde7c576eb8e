(** * Properties C82-C83: which of several minima the range minimum structures return. *)
From Verif Require Import Base Spec BaseFacts RmqModel RmqProofs FastRmqProofs PropsRmq.

(** [k] is a position of a minimum of [data[i..=j]]; [first]/[last] of them within a range. *)
Definition minimum_at (data : list N) (i j k : N) : Prop :=
  i <= k /\ k <= j /\ forall m, i <= m -> m <= j -> nthN 0 data k <= nthN 0 data m.
(** All elements at [i..=j] are larger than the one at [k]. *)
Definition above (data : list N) (i j k : N) : Prop := forall m, i <= m -> m <= j -> nthN 0 data k < nthN 0 data m.

(** ** C82: [BinaryRmq]. The left half of the range has the largest power of two of elements that is
    at most [j - i] (one element if [i = j]). *)
Definition left_end (i j : N) : N := i + 2 ^ N.log2 (j - i) - 1.
Definition binary_choice (data : list N) (i j k : N) : Prop :=
  minimum_at data i j k /\
  (k <= left_end i j /\ above data (k + 1) (left_end i j) k \/
   left_end i j < k /\ above data i (left_end i j) k /\ above data (k + 1) j k).
Theorem C82_binary data b i j : br_from_vec data = Ok b -> i <= j -> j < lenN data ->
  exists k, br_range_min b i j = Ok k /\ binary_choice data i j k.
Proof.
  intros Eb Hij Hj. destruct (N.lt_ge_cases (lenN data) (2 ^ 32)) as [H|H].
  2: { destruct (C28_construction data) as [_ Hp]. rewrite Hp in Eb by auto. discriminate. }
  destruct (br_from_vec_ok data H) as (b' & Eb' & Hd & Hr). rewrite Eb in Eb'. injection Eb' as <-.
  destruct (br_range_min_tie data H b i j Hd Hr Hij Hj) as (k & E & (A1 & A2 & A3 & A4) & T1 & T2). exists k. split; auto.
  split; [now repeat split|]. unfold left_end. destruct (N.le_gt_cases k (i + 2 ^ N.log2 (j - i) - 1)) as [L|L].
  - left. split; auto. intros m M1 M2. apply (T1 L); lia.
  - right. split; auto. destruct (T2 L) as [U1 U2]. split; [exact U1|]. intros m M1 M2. apply U2; lia.
Qed.
(** The choice is determined by the data. *)
Theorem C82_unique data i j k k' : binary_choice data i j k -> binary_choice data i j k' -> k = k'.
Proof.
  intros [(A1 & A2 & A3) H] [(B1 & B2 & B3) H']. pose proof (A3 k' B1 B2) as E1. pose proof (B3 k A1 A2) as E2.
  destruct (N.lt_trichotomy k k') as [L|[L|L]]; auto; exfalso.
  - destruct H as [[H1 H2]|(H1 & H2 & H3)].
    + destruct H' as [[G1 G2]|(G1 & G2 & G3)]; [specialize (H2 k')|specialize (G2 k)]; lia.
    + specialize (H3 k'). lia.
  - destruct H' as [[H1 H2]|(H1 & H2 & H3)].
    + destruct H as [[G1 G2]|(G1 & G2 & G3)]; [specialize (H2 k)|specialize (G2 k')]; lia.
    + specialize (H3 k). lia.
Qed.
(** So it is neither always the first nor always the last minimum. *)
Theorem C82_refuted : exists data b i j k, br_from_vec data = Ok b /\ br_range_min b i j = Ok k /\
  (exists m, i <= m /\ m < k /\ nthN 0 data m = nthN 0 data k) /\ (exists m, k < m /\ m <= j /\ nthN 0 data m = nthN 0 data k).
Proof.
  exists [4; 4; 4], (match br_from_vec [4; 4; 4] with Ok b => b | _ => mkbr [] [] end), 0, 2, 1. split; [vm_compute; reflexivity|]. split; [vm_compute; reflexivity|].
  split; [exists 0|exists 2]; (split; [lia|]); (split; [lia|reflexivity]).
Qed.
Example C82_ex : exists b, br_from_vec [7; 2; 5; 2; 2; 3] = Ok b /\ left_end 0 5 = 3 /\ br_range_min b 0 5 = Ok 3 /\ br_range_min b 2 5 = Ok 3 /\ br_range_min b 4 5 = Ok 4.
Proof. eexists. split; [vm_compute; reflexivity|]. vm_compute. auto. Qed.

(** ** C83: [FastRmq], with blocks of 128 elements. *)
Definition block (i : N) : N := i / 128.
(** The last minimum in the block of [i]; if there is none the first one in the block of [j]; if there
    is none the first one in a block between, where the block is chosen like in C82. *)
Definition fast_choice (data : list N) (i j k : N) : Prop :=
  let last_i := 128 * block i + 127 in
  let first_j := 128 * block j in
  let h := left_end (block i + 1) (block j - 1) in
  minimum_at data i j k /\
  if block i =? block j then forall m, i <= m -> m < k -> nthN 0 data k < nthN 0 data m
  else
    k <= last_i /\ above data (k + 1) last_i k \/
    first_j <= k /\ above data i last_i k /\ (forall m, first_j <= m -> m < k -> nthN 0 data k < nthN 0 data m) \/
    last_i < k /\ k < first_j /\ above data i last_i k /\ above data first_j j k /\
      (forall m, block m = block k -> m < k -> nthN 0 data k < nthN 0 data m) /\
      (block k <= h /\ (forall m, block k < block m -> block m <= h -> nthN 0 data k < nthN 0 data m) \/
       h < block k /\ (forall m, block i < block m -> block m <= h -> nthN 0 data k < nthN 0 data m) /\
         (forall m, block k < block m -> block m < block j -> nthN 0 data k < nthN 0 data m)).
Theorem C83_fast data r i j : fr_from_vec data = Ok r -> i <= j -> j < lenN data ->
  exists k, fr_range_min r i j = Ok k /\ fast_choice data i j k.
Proof.
  intros Eb Hij Hj. destruct (N.le_gt_cases (lenN data) (2 ^ 39 - 128)) as [H|H]; [|apply C57_length_limit in H; congruence].
  destruct (fr_from_vec_ok data) as (r' & E' & G); [lia|apply N.div_lt_upper_bound; lia|]. rewrite Eb in E'. injection E' as <-.
  destruct (fr_range_min_tie data r i j G Hij Hj) as (k & E & (A1 & A2 & A3 & A4) & T). exists k. split; auto. unfold fast_choice.
  split; [now repeat split|]. unfold fast_rule in T. fold (block i) (block j) in T. destruct (N.eqb_spec (block i) (block j)) as [Eq|Ne]; [exact T|].
  destruct T as (T1 & T2 & T3 & T4). destruct (N.le_gt_cases k (128 * block i + 127)) as [L|L].
  - left. split; auto. intros m M1 M2. apply (T1 L); lia.
  - right. destruct (N.le_gt_cases (128 * block j) k) as [L2|L2].
    + left. split; auto. split; [exact (T2 L)|]. exact (T3 L2).
    + right. split; auto. split; auto. split; [exact (T2 L)|]. destruct (T4 L L2) as [U1 (U2 & U3 & U4)]. split; [exact U1|].
      fold (block k) in *. split.
      * intros m M1 M2. apply U2; auto. rewrite <- M1. unfold block. pose proof (N.div_mod m 128 ltac:(lia)). lia.
      * unfold left_end. fold (left_end (block i + 1) (block j - 1)) in *. destruct (N.le_gt_cases (block k) (left_end (block i + 1) (block j - 1))) as [L3|L3]; [left|right].
        -- split; auto. 
        -- split; auto.
Qed.
Lemma fast_one_side data i j k k' : fast_choice data i j k -> fast_choice data i j k' -> k < k' -> False.
Proof.
  intros [(A1 & A2 & A3) H] [(B1 & B2 & B3) H'] L. pose proof (A3 k' B1 B2) as E1. pose proof (B3 k A1 A2) as E2.
  destruct (N.eqb_spec (block i) (block j)) as [Eq|Ne]; [specialize (H' k A1 L); lia|].
  assert (Hbl : forall x, 128 * block i + 127 < x -> block i < block x) by (intros x Hx; unfold block in *; pose proof (N.div_mod x 128 ltac:(lia)); pose proof (N.mod_lt x 128 ltac:(lia)); lia).
  assert (Hbj : forall x, x < 128 * block j -> block x < block j) by (intros x Hx; unfold block in *; apply N.div_lt_upper_bound; lia).
  destruct H' as [[G1 G2]|[(G1 & G2 & G3)|(G1 & G2 & G3 & G4 & G5 & G6)]].
  - destruct H as [[H1 H2]|[(H1 & H2 & H3)|(H1 & H2 & H3 & _)]]; [specialize (H2 k'); lia|specialize (H2 k'); lia|specialize (H3 k'); lia].
  - destruct H as [[H1 H2]|[(H1 & H2 & H3)|(H1 & H2 & H3 & H4 & _)]]; [specialize (G2 k); lia|specialize (G3 k); lia|specialize (H4 k'); lia].
  - destruct H as [[H1 H2]|[(H1 & H2 & H3)|(H1 & H2 & H3 & H4 & H5 & H6)]]; [specialize (G3 k); lia|specialize (G4 k); lia|].
    destruct (N.eq_dec (block k) (block k')) as [Eb|Nb]; [specialize (G5 k Eb L); lia|].
    assert (Hlt : block k < block k') by (unfold block in *; pose proof (N.div_le_mono k k' 128 ltac:(lia) ltac:(lia)); lia).
    pose proof (Hbl k H1). pose proof (Hbj k' G2).
    destruct H6 as [[H6 H7]|(H6 & H7 & H8)]; [|specialize (H8 k'); lia].
    destruct G6 as [[G6 G7]|(G6 & G7 & G8)]; [specialize (H7 k'); lia|specialize (G7 k); lia].
Qed.
Theorem C83_unique data i j k k' : fast_choice data i j k -> fast_choice data i j k' -> k = k'.
Proof.
  intros H H'. destruct (N.lt_trichotomy k k') as [L|[L|L]]; auto; exfalso; [apply (fast_one_side data i j k k')|apply (fast_one_side data i j k' k)]; auto.
Qed.
(** The two structures disagree on ties. *)
Theorem C83_refuted : exists data b r i j k k', br_from_vec data = Ok b /\ fr_from_vec data = Ok r /\ i <= j /\ j < lenN data /\
  br_range_min b i j = Ok k /\ fr_range_min r i j = Ok k' /\ k <> k'.
Proof.
  exists [4; 4; 4], (match br_from_vec [4; 4; 4] with Ok b => b | _ => mkbr [] [] end), (match fr_from_vec [4; 4; 4] with Ok r => r | _ => mkfr [] (mkbr [] []) [] [] end), 0, 2, 1, 0.
  split; [vm_compute; reflexivity|]. split; [vm_compute; reflexivity|]. split; [lia|]. split; [reflexivity|]. split; [vm_compute; reflexivity|]. split; [vm_compute; reflexivity|]. lia.
Qed.
(** Minima at 3, 130, 140, 260 and 300. *)
Definition ex_ties : list N := map (fun i => if (i =? 3) || (i =? 130) || (i =? 140) || (i =? 260) || (i =? 300) then 1 else 5) (range 0 400).
Example C83_ex : match fr_from_vec ex_ties with
  | Ok r => fr_range_min r 0 399 = Ok 3 /\ fr_range_min r 10 399 = Ok 130 /\ fr_range_min r 129 200 = Ok 130 /\ fr_range_min r 129 299 = Ok 140 /\ fr_range_min r 150 310 = Ok 260
  | _ => False end.
Proof. vm_compute. auto 6. Qed.
