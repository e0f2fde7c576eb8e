(** * Proofs about the range minimum structures. *)
From Verif Require Import Base Spec BaseFacts WordFacts BitVecModel RsVecModel PdepProofs EFProofs RmqModel.

(** [k] is the index of a minimum of [data[i..=j]]. *)
Definition is_argmin (data : list N) (i j k : N) : Prop :=
  i <= k /\ k <= j /\ j < lenN data /\ forall m, i <= m -> m <= j -> nthN 0 data k <= nthN 0 data m.

Lemma argmin_merge data i j i' j' a b :
  is_argmin data i j a -> is_argmin data i' j' b -> i <= i' -> i' <= j + 1 -> j <= j' ->
  is_argmin data i j' (if nthN 0 data a <? nthN 0 data b then a else b) /\
  is_argmin data i j' (if nthN 0 data b <? nthN 0 data a then b else a).
Proof.
  intros (A1 & A2 & A3 & A4) (B1 & B2 & B3 & B4) H1 H2 H3.
  destruct (N.ltb_spec (nthN 0 data a) (nthN 0 data b)), (N.ltb_spec (nthN 0 data b) (nthN 0 data a)); try lia.
  all: split; repeat (split; [lia|]); intros m M1 M2; specialize (A4 m); specialize (B4 m); lia.
Qed.
(** [k] is behind all other minima. *)
Definition is_last (data : list N) (j k : N) : Prop := forall m, k < m -> m <= j -> nthN 0 data k < nthN 0 data m.
Lemma last_merge data i j i' j' a b :
  is_argmin data i j a /\ is_last data j a -> is_argmin data i' j' b /\ is_last data j' b -> i <= i' -> i' <= j + 1 -> j <= j' ->
  is_last data j' (if nthN 0 data a <? nthN 0 data b then a else b).
Proof.
  intros [(A1 & A2 & A3 & A4) A5] [(B1 & B2 & B3 & B4) B5] H1 H2 H3. destruct (N.ltb_spec (nthN 0 data a) (nthN 0 data b)); auto.
  intros m M1 M2. destruct (N.le_gt_cases m j); [apply A5; lia|]. specialize (B4 m ltac:(lia) M2). lia.
Qed.
Lemma argmin_single data i : i < lenN data -> is_argmin data i i i.
Proof. intros H. repeat split; try lia. intros m H1 H2. replace m with i by lia. lia. Qed.
Lemma argmin_word data i j k : is_argmin data i j k -> k < lenN data.
Proof. intros (H1 & H2 & H3 & _). lia. Qed.

(** ** BinaryRmq *)
Section Binary.
Variable data : list N.
Local Notation len := (lenN data).
Hypothesis Hlen : len < 2 ^ 32.
Local Notation K := (tz_npt len).
Local Notation row := (K + 1).
Local Notation cell r i j := (nthN 0 r (j * row + i)).

Definition good_cell (r : list N) (i j : N) : Prop :=
  cell r i j + j < len /\ (j + 2 ^ i <= len -> is_argmin data j (j + 2 ^ i - 1) (cell r i j + j) /\ is_last data (j + 2 ^ i - 1) (cell r i j + j)).

Lemma cell_lt i j : j < len -> i < row -> j * row + i < len * row.
Proof using Hlen. intros. nia. Qed.
Lemma cell_inj i j i' j' : i < row -> i' < row -> j * row + i = j' * row + i' -> i = i' /\ j = j'.
Proof using Hlen.
  intros H1 H2 E. assert (j = j'); [|subst; split; [lia|auto]].
  destruct (N.lt_trichotomy j j') as [H|[H|H]]; auto; nia.
Qed.
Lemma pow_lt_len i : i < K -> 2 ^ i < len.
Proof using Hlen.
  intros H. unfold tz_npt in H. assert (1 < len). { destruct (N.le_gt_cases len 1) as [H1|]; auto.
    rewrite (proj2 (N.log2_up_null len)) in H by auto. lia. }
  destruct (N.log2_up_spec len) as [H1 _]; auto. eapply N.le_lt_trans; [|exact H1]. apply N.pow_le_mono_r; lia.
Qed.
Lemma arg_ok r i j : lenN r = len * row -> j < len -> i < row -> br_arg r row i j = Ok (cell r i j + j).
Proof using Hlen. intros Hr Hj Hi. unfold br_arg. rewrite (idx_ok 0) by (rewrite Hr; now apply cell_lt). reflexivity. Qed.

Lemma arg_min_ok r i j : lenN r = len * row -> i < K -> j < len ->
  (forall j', j' < len -> good_cell r i j') ->
  exists a, br_arg_min data r row i j = Ok a /\ j <= a /\ a < len /\
    (j + 2 ^ (i + 1) <= len -> is_argmin data j (j + 2 ^ (i + 1) - 1) a /\ is_last data (j + 2 ^ (i + 1) - 1) a).
Proof using Hlen.
  intros Hr Hi Hj HG. pose proof (pow_lt_len i Hi) as Hp. assert (Hp0 : 0 < 2 ^ i) by (apply N.neq_0_lt_0, N.pow_nonzero; lia).
  replace (2 ^ (i + 1)) with (2 * 2 ^ i) by (rewrite (N.add_1_r i), N.pow_succ_r'; reflexivity). unfold br_arg_min. destruct (N.ltb_spec (j + 2 ^ i) len) as [H|H].
  - destruct (HG j Hj) as [A1 A2]. destruct (HG (j + 2 ^ i) H) as [B1 B2].
    rewrite !arg_ok by (auto; lia). cbn [bind]. rewrite !(idx_ok 0) by auto. cbn [bind].
    eexists. split; [reflexivity|]. split; [destruct (_ <? _); lia|]. split; [destruct (_ <? _); lia|].
    intros Hc. specialize (A2 ltac:(lia)). specialize (B2 ltac:(lia)).
    replace (j + 2 * 2 ^ i - 1) with (j + 2 ^ i + 2 ^ i - 1) by lia.
    split; [apply (argmin_merge data _ _ _ _ _ _ (proj1 A2) (proj1 B2))|apply (last_merge data _ _ _ _ _ _ A2 B2)]; lia.
  - rewrite sub_ok by lia. cbn [bind]. rewrite sub_ok by lia. cbn [bind].
    destruct (N.ltb_spec j (len - 2 ^ i - 1)); [lia|]. exists j. split; auto. split; [lia|]. split; [auto|]. lia.
Qed.

Definition rows_done (r : list N) (i : N) : Prop :=
  lenN r = len * row /\ forall k j, k <= i -> j < len -> good_cell r k j.

Lemma good_cell_set r p v i j : p < lenN r -> j * row + i <> p -> good_cell r i j -> good_cell (set_nth r (N.to_nat p) v) i j.
Proof using Hlen.
  intros Hl Hp (H1 & H2). unfold good_cell. rewrite nthN_set_nth by auto. destruct (N.eqb_spec (j * row + i) p) as [Ep|Ep]; [congruence|]. auto.
Qed.

Lemma column_ok r i : i < K -> rows_done r i ->
  exists r', forM (range 0 len) r (br_cell data row i) = Ok r' /\ rows_done r' (i + 1).
Proof using Hlen.
  intros Hi [Hr HG].
  destruct (forM_range_inv (fun j' r' => lenN r' = len * row /\ (forall k j, k <= i -> j < len -> good_cell r' k j) /\
      forall j, j < j' -> good_cell r' (i + 1) j) 0 len r (br_cell data row i)) as (r' & E & H1 & H2 & H3).
  - lia.
  - split; auto. split; auto. intros; lia.
  - intros j s _ Hj (S1 & S2 & S3). unfold br_cell.
    destruct (arg_min_ok s i j S1 Hi Hj) as (a & E & A1 & A2 & A3); [intros; apply S2; auto; lia|].
    rewrite E. cbn [bind]. rewrite sub_ok by auto. cbn [bind]. rewrite N.mod_small by lia.
    unfold set_idx. rewrite S1. destruct (N.ltb_spec (j * row + i + 1) (len * row)) as [Hb|Hb].
    + eexists. split; [reflexivity|]. split; [now rewrite lenN_set_nth|]. split.
      * intros k j0 Hk Hj0. apply good_cell_set; [lia| |auto]. intros Eq.
        rewrite <- N.add_assoc in Eq. apply cell_inj in Eq; lia.
      * intros j0 Hj0. destruct (N.eq_dec j0 j) as [->|Hne].
        -- unfold good_cell. rewrite !(N.add_assoc (j * row)), nthN_set_nth by lia. rewrite N.eqb_refl.
           replace (a - j + j) with a by lia. auto.
        -- apply good_cell_set; [lia| |apply S3; lia]. intros Eq. rewrite <- N.add_assoc in Eq. apply cell_inj in Eq; lia.
    + pose proof (cell_lt (i + 1) j Hj). lia.
  - exists r'. split; auto. split; auto. intros k j Hk Hj. destruct (N.eq_dec k (i + 1)) as [->|]; [auto|apply H2; auto; lia].
Qed.

Lemma br_from_vec_ok : exists b, br_from_vec data = Ok b /\ br_data b = data /\ rows_done (br_results b) K.
Proof using Hlen.
  unfold br_from_vec. destruct (N.ltb_spec len (2 ^ 32)) as [_|]; [|lia]. cbn [assert bind].
  destruct (forM_range_inv (fun _ r => lenN r = len * row /\ forall p, nthN 0 r p = 0) 0 len (replicate (len * row) 0)
              (fun r i => set_idx r (i * row) 0)) as (r & E & H1 & H2).
  - lia.
  - split; [apply lenN_replicate|]. intros p. destruct (N.ltb_spec p (len * row)).
    + now rewrite nthN_replicate.
    + apply nthN_overflow. rewrite lenN_replicate. auto.
  - intros i s _ Hi (S1 & S2). unfold set_idx. rewrite S1. pose proof (cell_lt 0 i Hi ltac:(lia)) as Hc. rewrite N.add_0_r in Hc.
    destruct (N.ltb_spec (i * row) (len * row)); [|lia]. eexists. split; [reflexivity|]. split; [now rewrite lenN_set_nth|].
    intros p. rewrite nthN_set_nth by lia. destruct (_ =? _); auto.
  - rewrite E. cbn [bind].
    destruct (forM_range_inv (fun i r => rows_done r i) 0 K r
      (fun r i => forM (range 0 len) r (br_cell data row i))) as (r' & E' & HR).
    + lia.
    + split; auto. intros k j Hk Hj. replace k with 0 by lia. unfold good_cell. rewrite H2. split; [lia|].
      intros _. change (2 ^ 0) with 1. replace (j + 1 - 1) with j by lia. rewrite N.add_0_l. split; [now apply argmin_single|intros m M1 M2; lia].
    + intros i s _ Hi HR. now apply column_ok.
    + rewrite E'. cbn [bind]. eexists. split; [reflexivity|]. auto.
Qed.

(** Among several minima the query takes the last one of its left half, of length [2 ^ log2 (j - i)],
    and the last one of the range if there is none in the left half. *)
Definition tie_rule (h j k : N) (i : N) : Prop :=
  (k <= h -> is_last data h k) /\
  (h < k -> (forall m, i <= m -> m <= h -> nthN 0 data k < nthN 0 data m) /\ is_last data j k).
Lemma br_range_min_tie b i j : br_data b = data -> rows_done (br_results b) K -> i <= j -> j < len ->
  exists k, br_range_min b i j = Ok k /\ is_argmin data i j k /\ tie_rule (i + 2 ^ N.log2 (j - i) - 1) j k i.
Proof using Hlen.
  intros Hb [Hr HG] Hij Hj. unfold br_range_min. rewrite Hb. rewrite sub_ok by auto. cbn [bind].
  set (ld := N.log2 (j - i)).
  assert (Hld : ld <= K).
  { unfold ld, tz_npt. transitivity (N.log2_up (j - i)); [apply N.le_log2_log2_up|apply N.log2_up_le_mono; lia]. }
  assert (Hp0 : 0 < 2 ^ ld) by (apply N.neq_0_lt_0, N.pow_nonzero; lia).
  assert (Hp : 2 ^ ld <= j - i + 1 /\ j - i < 2 * 2 ^ ld).
  { unfold ld. destruct (N.eq_dec (j - i) 0) as [->|E0]; [cbn; lia|].
    destruct (N.log2_spec (j - i)) as [P1 P2]; [lia|]. rewrite N.pow_succ_r' in P2. lia. }
  rewrite arg_ok by (auto; lia). cbn [bind]. rewrite sub_ok by lia. cbn [bind]. rewrite arg_ok by (auto; lia). cbn [bind].
  destruct (HG ld i Hld ltac:(lia)) as [A1 A2]. destruct (HG ld (j - (2 ^ ld - 1)) Hld ltac:(lia)) as [B1 B2].
  specialize (A2 ltac:(lia)). specialize (B2 ltac:(lia)).
  replace (j - (2 ^ ld - 1) + 2 ^ ld - 1) with j in B2 by lia.
  unfold min_by_data. rewrite !(idx_ok 0) by auto. cbn [bind]. eexists. split; [reflexivity|].
  split; [apply (argmin_merge data _ _ _ _ _ _ (proj1 A2) (proj1 B2)); lia|].
  destruct A2 as [(A2 & A3 & A4 & A5) A6], B2 as [(B2 & B3 & B4 & B5) B6].
  match goal with |- context [if ?x <? ?y then _ else _] => destruct (N.ltb_spec x y) as [L|L] end.
  - split; [|split; [|auto]].
    + intros Hk m M1 M2. apply B6; lia.
    + intros m M1 M2. specialize (A5 m M1 ltac:(lia)). lia.
  - split; [auto|intros; lia].
Qed.
Lemma br_range_min_ok b i j : br_data b = data -> rows_done (br_results b) K -> i <= j -> j < len ->
  exists k, br_range_min b i j = Ok k /\ is_argmin data i j k.
Proof using Hlen. intros H1 H2 H3 H4. destruct (br_range_min_tie b i j H1 H2 H3 H4) as (k & E & A & _). eauto. Qed.
End Binary.
