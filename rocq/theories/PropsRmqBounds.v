(** * Property C111: range minimum queries with indices out of bounds. *)
From Verif Require Import Base Spec BaseFacts WordFacts BitVecModel RmqModel RmqProofs FastRmqProofs PropsRmq PropsRmqTies PropsFastInverted.

(** ** [BinaryRmq] never returns an index out of bounds. *)
Theorem C111_binary data b i j : br_from_vec data = Ok b ->
  (forall k, br_range_min b i j = Ok k -> k < lenN data /\ i <= k) /\
  (j < i \/ lenN data <= i -> br_range_min b i j = Panic).
Proof.
  intros Eb. destruct (N.lt_ge_cases (lenN data) (2 ^ 32)) as [H|H].
  2: { destruct (C28_construction data) as [_ Hp]. rewrite Hp in Eb by auto. discriminate. }
  destruct (br_from_vec_ok data H) as (b' & Eb' & Hd & [Hr _]). rewrite Eb in Eb'. injection Eb' as <-.
  unfold br_range_min, br_arg. rewrite Hd. split.
  - intros k. unfold sub. destruct (N.leb_spec i j) as [Hij|]; cbn [bind]; [|discriminate].
    destruct (idx _ (i * _ + _)) as [a| |]; cbn [bind]; try discriminate.
    destruct (N.leb_spec (2 ^ N.log2 (j - i) - 1) j) as [Hj|]; cbn [bind]; [|discriminate].
    destruct (idx _ (_ * _ + _)) as [c| |]; cbn [bind]; try discriminate.
    assert (Hl : 2 ^ N.log2 (j - i) <= j - i + 1).
    { destruct (N.eq_dec (j - i) 0) as [->|]; [cbn; lia|]. pose proof (N.log2_spec (j - i)). lia. }
    unfold min_by_data. destruct (N.lt_ge_cases (a + i) (lenN data)) as [L|L]; [|rewrite idx_panic by auto; discriminate].
    rewrite (idx_ok 0) by auto. cbn [bind].
    destruct (N.lt_ge_cases (c + (j - (2 ^ N.log2 (j - i) - 1))) (lenN data)) as [L2|L2]; [|rewrite idx_panic by auto; discriminate].
    rewrite (idx_ok 0) by auto. cbn [bind]. destruct (_ <? _); intros E; injection E as <-; split; auto; lia.
  - intros [L|L]; unfold sub; destruct (N.leb_spec i j) as [Hij|]; cbn [bind]; auto; [lia|].
    rewrite idx_panic; [reflexivity|]. rewrite Hr. nia.
Qed.

(** ** [FastRmq]: an index beyond the end in the last block is returned itself. *)
Section Out.
Variable data : list N.
Variable r : frmq.
Hypothesis G : fr_good data r.
Local Notation len := (lenN data).
Local Notation NB := ((len + 127) / 128).
Local Notation blk x := (nthN (mkfb 0 0) (fr_blocks r) (block x)).

Lemma prefix_beyond x : len <= x -> block x < NB ->
  sbv_rank0 (fb_prefix (blk x)) (x mod 128 + 1) = Ok (zeros (fb_prefix (blk x)) (x mod 128) + 1) /\
  sbv_select0 (fb_prefix (blk x)) (zeros (fb_prefix (blk x)) (x mod 128)) = Ok (x mod 128).
Proof using G.
  intros Hx Hb. destruct G as [Gd (L1 & L2 & L3 & HG) Gs Gm]. pose proof (HG (block x) Hb) as Gb. pose proof (N.mod_lt x 128 ltac:(lia)) as Lx.
  assert (C : N.testbit (fb_prefix (blk x)) (x mod 128) = false).
  { apply (bg_pclear _ _ _ _ _ Gb). unfold block in *. pose proof (N.div_mod x 128 ltac:(lia)). lia. }
  rewrite sbv_rank0_ok by lia. rewrite cnt_succ, C. split; [reflexivity|]. now apply sbv_select0_ok.
Qed.
Lemma outside_ok i j : i <= j -> len <= j ->
  fr_range_min r i j = if (i <? j) && (block i =? block j) && (block j <? NB) then Ok j else Panic.
Proof using G.
  intros Hij Hj. pose proof G as [Gd (L1 & L2 & L3 & HG) Gs Gm]. unfold fr_range_min. rewrite Gd. fold (block i) (block j).
  pose proof (N.div_mod i 128 ltac:(lia)) as Ei. pose proof (N.mod_lt i 128 ltac:(lia)) as Li. fold (block i) in Ei.
  pose proof (N.div_mod j 128 ltac:(lia)) as Ej. pose proof (N.mod_lt j 128 ltac:(lia)) as Lj. fold (block j) in Ej.
  destruct (N.eqb_spec (block i) (block j)) as [Eb|Nb].
  - rewrite andb_true_r, Eb. destruct (N.ltb_spec (block j) NB) as [Hb|Hb]; rewrite ?andb_true_r, ?andb_false_r.
    2:{ now rewrite idx_panic by lia. }
    destruct (prefix_beyond j Hj Hb) as [P1 P2]. rewrite (idx_ok (mkfb 0 0)) by lia. cbn [bind].
    rewrite sbv_rank0_ok by lia. cbn [bind]. rewrite P1. cbn [bind]. destruct (N.ltb_spec i j) as [H|H].
    + pose proof (cnt_mono (fun k => negb (N.testbit (fb_prefix (blk j)) k)) (i mod 128 + 1) (j mod 128) ltac:(lia)) as M.
      destruct (N.ltb_spec (zeros (fb_prefix (blk j)) (i mod 128 + 1)) (zeros (fb_prefix (blk j)) (j mod 128) + 1)); [|lia].
      rewrite N.add_sub, P2. cbn [bind]. f_equal. lia.
    + assert (i = j) by lia. subst i. rewrite sbv_rank0_ok in P1 by lia. injection P1 as P1. rewrite P1.
      rewrite N.ltb_irrefl. rewrite sbv_rank0_ok by lia. cbn [bind]. rewrite N.ltb_irrefl.
      unfold slice_chk. destruct (N.leb_spec (j + 1) len); [lia|]. now rewrite andb_false_r.
  - rewrite andb_false_r. cbn [andb]. destruct (N.ltb_spec (block i) NB) as [Hbi|Hbi]; [|now rewrite idx_panic by lia].
    destruct (suffix_search data r G i Hbi) as (s & S1 & S2 & S3 & S4 & _). fold (to_end i).
    assert (T : to_end i <= 128) by (unfold to_end; lia).
    rewrite (idx_ok (mkfb 0 0)) by lia. cbn [bind]. rewrite sbv_rank0_ok by lia. cbn [bind]. rewrite S3, sub_ok by lia. cbn [bind].
    rewrite N.add_sub, S4. cbn [bind]. rewrite sub_ok by lia. cbn [bind]. rewrite sub_ok by lia. cbn [bind].
    destruct (N.ltb_spec (block j) NB) as [Hbj|Hbj]; [|now rewrite idx_panic by lia].
    destruct (prefix_beyond j Hj Hbj) as [P1 P2]. rewrite (idx_ok (mkfb 0 0)) by lia. cbn [bind].
    rewrite P1. cbn [bind]. rewrite sub_ok by lia. cbn [bind]. rewrite N.add_sub, P2. cbn [bind].
    assert (Mj : min_by_data data ((block i + 1) * 128 - s - 1) (block j * 128 + j mod 128) = Panic).
    { unfold min_by_data. rewrite (idx_panic data (block j * 128 + j mod 128)) by lia. unfold idx. destruct (_ <? _); [destruct (nth_error _ _)|]; reflexivity. }
    destruct (N.ltb_spec (block i + 1) (block j)) as [H|H]; [|exact Mj].
    destruct (br_range_min_ok (br_data (fr_minima r)) ltac:(lia) (fr_minima r) (block i + 1) (block j - 1) eq_refl Gm) as (m & Em & K1 & K2 & _); [lia|lia|].
    rewrite Em. cbn [bind]. rewrite (idx_ok 0) by lia. cbn [bind]. now rewrite Mj.
Qed.
End Out.

Theorem C111_fast data r i j : fr_from_vec data = Ok r ->
  if i <=? j then
    lenN data <= j ->
    fr_range_min r i j = if (i <? j) && (block i =? block j) && (128 * block j <? lenN data) then Ok j else Panic
  else if 128 * block i <? lenN data then inverted_result data i j (fr_range_min r i j)
  else fr_range_min r i j = Panic.
Proof.
  intros E. destruct (N.le_gt_cases (lenN data) (2 ^ 39 - 128)) as [H|H]; [|apply C57_length_limit in H; congruence].
  destruct (fr_from_vec_ok data) as (r' & E' & G); [lia|apply N.div_lt_upper_bound; lia|]. rewrite E in E'. injection E' as <-.
  assert (B : forall x, (128 * block x <? lenN data) = (block x <? (lenN data + 127) / 128)).
  { intros x. destruct (N.ltb_spec (128 * block x) (lenN data)), (N.ltb_spec (block x) ((lenN data + 127) / 128)); auto; dlia. }
  rewrite !B. destruct (N.leb_spec i j) as [Hij|Hij].
  - intros Hj. now apply outside_ok.
  - destruct (N.ltb_spec (block i) ((lenN data + 127) / 128)) as [Hb|Hb]; [now apply inverted_ok|].
    pose proof G as [_ (_ & _ & L3 & _) _ _]. unfold fr_range_min. fold (block i) (block j). rewrite idx_panic by lia.
    destruct (_ =? _); reflexivity.
Qed.
(** Together with C83 all calls are covered. 150 elements, the last block has 22 of them. *)
Example C111_ex : match fr_from_vec ex_inv, br_from_vec ex_inv with
  | Ok r, Ok b => fr_range_min r 130 200 = Ok 200 /\ fr_range_min r 151 152 = Ok 152 /\ fr_range_min r 152 152 = Panic /\
      fr_range_min r 100 200 = Panic /\ fr_range_min r 130 256 = Panic /\ fr_range_min r 180 170 = Ok 171 /\ fr_range_min r 180 20 = Panic /\
      fr_range_min r 256 3 = Panic /\ br_range_min b 150 150 = Panic
  | _, _ => False end.
Proof. vm_compute. repeat split. Qed.
