(** * Reads and equality of [RsVec]. *)
From Verif Require Import Base Spec BaseFacts WordFacts BitVecModel BitVecProofs BitVecProofs2
  RsVecModel RsVecProofs RsVecSelect IterSpec IterFacts RsIterModel RsIterProofs.

(** ** Reads *)
Lemma rs_get_unchecked_ok bv rs p : wf bv -> rs_good bv rs -> p < blen bv ->
  rs_get_unchecked rs p = Ok (bitN (bit_at (bdata bv) p)).
Proof.
  intros Hwf G Hp. unfold rs_get_unchecked. rewrite (good_data _ _ G).
  rewrite (idx_ok 0) by (destruct Hwf as [-> _]; dlia). cbn [bind]. f_equal.
  unfold bit_at. apply shiftr_land_1.
Qed.
Lemma rs_get_ok bv rs p : wf bv -> rs_good bv rs ->
  rs_get rs p = Ok (option_map bitN (getN (bits bv) p)).
Proof.
  intros Hwf G. unfold rs_get. rewrite (good_len _ _ G). destruct (N.leb_spec (blen bv) p) as [L|L].
  - rewrite getN_none; auto. now rewrite lenN_bits.
  - rewrite (rs_get_unchecked_ok bv) by auto. cbn [bind]. rewrite (getN_ok false) by now rewrite lenN_bits.
    now rewrite nthN_bits.
Qed.
(** The only panics are an overflow of [pos + n] and the empty read at the end of a vector whose
    length is a multiple of 64. *)
Lemma rs_get_bits_ok bv rs p n : wf bv -> rs_good bv rs -> p + n < U64 ->
  n <> 0 \/ p mod 64 <> 0 \/ p < blen bv \/ blen bv < p ->
  rs_get_bits rs p n = Ok (if (n <=? 64) && (p + n <=? blen bv)
                           then Some (value (sliceN p n (bits bv))) else None).
Proof.
  intros Hwf G Ho Hn. unfold rs_get_bits. rewrite (good_len _ _ G), (good_data _ _ G).
  destruct (N.ltb_spec 64 n), (N.leb_spec n 64); try lia; cbn [andb]; auto.
  rewrite add64_ok by auto. cbn [bind].
  destruct (N.ltb_spec (blen bv) (p + n)), (N.leb_spec (p + n) (blen bv)); try lia; auto.
  destruct (N.eqb_spec n 0) as [->|E].
  - unfold limbs_get_bits_unchecked. rewrite assert_true by lia. cbn [bind].
    rewrite (idx_ok 0) by (destruct Hwf as [-> _]; dlia). cbn [bind].
    destruct (N.leb_spec (p mod 64 + 0) 64); [|dlia]. cbn [bind].
    change (wrapmask 0) with 0. now rewrite N.land_0_r.
  - pose proof (bv_get_bits_unchecked_ok bv p n Hwf ltac:(lia) ltac:(lia) ltac:(lia)) as X.
    unfold bv_get_bits_unchecked in X. rewrite X. reflexivity.
Qed.
Lemma rs_into_bit_vec_ok bv rs : rs_good bv rs -> rs_into_bit_vec rs = bv.
Proof. intros G. unfold rs_into_bit_vec. rewrite (good_len _ _ G), (good_data _ _ G). now destruct bv. Qed.

(** ** Equality *)
Lemma bits_eq_iff a b : bits a = bits b <->
  blen a = blen b /\ forall i, i < blen a -> bit_at (bdata a) i = bit_at (bdata b) i.
Proof.
  split.
  - intros H. pose proof (f_equal lenN H) as E. rewrite !lenN_bits in E. split; auto.
    intros i Hi. rewrite <- (nthN_bits false a i), <- (nthN_bits false b i) by lia. now rewrite H.
  - intros [E H]. unfold bits. rewrite <- E. now apply bools_ext.
Qed.

Lemma rank_totals a b ra rb : rs_good a ra -> rs_good b rb -> bits a = bits b ->
  rrank0 ra = rrank0 rb /\ rrank1 ra = rrank1 rb.
Proof.
  intros Ga Gb E. rewrite (good_rank0 _ _ Ga), (good_rank0 _ _ Gb), (good_rank1 _ _ Ga), (good_rank1 _ _ Gb).
  apply bits_eq_iff in E. destruct E as [El E]. rewrite <- El. split; apply cnt_ext; intros; unfold zbit; now rewrite E.
Qed.

Lemma existsb_combine (x y : list N) : lenN x = lenN y ->
  existsb (fun '(p, q) => negb (p =? q)) (combine x y) = false <-> x = y.
Proof.
  revert y. induction x as [|p x IH]; intros [|q y] E; rewrite ?lenN_cons in E; cbn in E; try lia.
  - now cbn.
  - cbn [combine existsb]. rewrite orb_false_iff, negb_false_iff, N.eqb_eq, IH by lia. split.
    + intros [-> ->]. auto.
    + intros [= -> ->]. auto.
Qed.

Lemma rs_full_equals_ok a b ra rb : wf a -> wf b -> rs_good a ra -> rs_good b rb ->
  exists r, rs_full_equals ra rb = Ok r /\ (r = true <-> bits a = bits b).
Proof.
  intros Ha Hb Ga Gb. unfold rs_full_equals.
  pose proof (rank_totals a b ra rb Ga Gb) as HR.
  rewrite (good_len _ _ Ga), (good_len _ _ Gb), (good_data _ _ Ga), (good_data _ _ Gb).
  destruct (N.eqb_spec (blen a) (blen b)) as [E|E]; cbn [negb].
  2:{ exists false. split; auto. split; [discriminate|]. intros H. apply bits_eq_iff in H. tauto. }
  destruct (N.eqb_spec (rrank0 ra) (rrank0 rb)) as [E0|E0]; cbn [negb orb].
  2:{ exists false. split; auto. split; [discriminate|]. intros H. tauto. }
  destruct (N.eqb_spec (rrank1 ra) (rrank1 rb)) as [E1|E1]; cbn [negb orb].
  2:{ exists false. split; auto. split; [discriminate|]. intros H. tauto. }
  clear HR. pose proof Ha as [Hla Hwa]. pose proof Hb as [Hlb Hwb].
  rewrite !slice_chk_ok by (rewrite ?Hla, ?Hlb; dlia). cbn [bind]. rewrite <- E in *.
  set (n := blen a / 64). rewrite N.sub_0_r.
  set (x := sliceN 0 n (bdata a)). set (y := sliceN 0 n (bdata b)).
  assert (Hx : x = y <-> forall i, i < 64 * n -> bit_at (bdata a) i = bit_at (bdata b) i).
  { unfold x, y. split.
    - intros H i Hi. unfold bit_at. f_equal.
      assert (Hn : nthN 0 (sliceN 0 n (bdata a)) (i / 64) = nthN 0 (sliceN 0 n (bdata b)) (i / 64)) by now rewrite H.
      unfold sliceN in Hn. rewrite !nthN_takeN, !nthN_dropN in Hn by dlia. now rewrite !N.add_0_l in Hn.
    - intros H. apply list_ext with (d := 0).
      + rewrite !lenN_sliceN; unfold n; rewrite ?Hla, ?Hlb; dlia.
      + intros i Hi. rewrite lenN_sliceN in Hi by (unfold n; rewrite Hla; dlia).
        unfold sliceN. rewrite !nthN_takeN, !nthN_dropN by lia. rewrite !N.add_0_l.
        apply bits_eq_limbs; auto; try (unfold n in *; dlia). intros j Hj. apply H. lia. }
  assert (Hlen : lenN x = lenN y) by (unfold x, y; rewrite !lenN_sliceN; unfold n; rewrite ?Hla, ?Hlb; dlia).
  pose proof (existsb_combine x y Hlen) as Hex. rewrite Hx in Hex.
  destruct (existsb _ _).
  { exists false. split; auto. split; [discriminate|]. intros H. apply bits_eq_iff in H. destruct H as [_ H].
    symmetry. apply Hex. intros i Hi. apply H. unfold n in Hi. dlia. }
  destruct Hex as [Hex _]. specialize (Hex eq_refl). clear Hx.
  destruct (N.eqb_spec (blen a mod 64) 0) as [Em|Em]; cbn [negb].
  - exists true. split; auto. split; auto. intros _. apply bits_eq_iff. split; auto. intros i Hi. apply Hex. unfold n. dlia.
  - rewrite !(idx_ok 0) by (unfold n; rewrite ?Hla, ?Hlb; dlia). cbn [bind]. eexists. split; [reflexivity|].
    rewrite N.eqb_eq, bits_eq_iff. split.
    + intros H. split; auto. intros i Hi. destruct (N.lt_ge_cases i (64 * n)); [now apply Hex|].
      apply (f_equal (fun w => N.testbit w (i mod 64))) in H.
      rewrite !N.land_spec, lowmask_spec in H by dlia. unfold n in *.
      destruct (N.ltb_spec (i mod 64) (blen a mod 64)); [|dlia]. rewrite !andb_true_r in H.
      unfold bit_at. replace (i / 64) with (blen a / 64) by dlia. auto.
    + intros [_ H]. apply N.bits_inj. intros j. rewrite !N.land_spec, lowmask_spec by dlia.
      destruct (N.ltb_spec j (blen a mod 64)); [|now rewrite !andb_false_r]. rewrite !andb_true_r.
      specialize (H (64 * n + j) ltac:(unfold n; dlia)). unfold bit_at in H.
      replace ((64 * n + j) / 64) with n in H by dlia. replace ((64 * n + j) mod 64) with j in H by dlia. auto.
Qed.

Lemma getN_some_lt {A} (l : list A) i x : getN l i = Some x -> i < lenN l.
Proof. unfold getN. destruct (N.ltb_spec i (lenN l)); [auto|discriminate]. Qed.
Lemma getN_none_inv {A} (l : list A) i : getN l i = None -> lenN l <= i.
Proof.
  destruct (N.lt_ge_cases i (lenN l)) as [L|L]; auto. destruct l as [|d l0]; [cbn; lia|].
  rewrite (getN_ok d) by auto. discriminate.
Qed.

(** The sparse loop checks that each remaining position of [a] is a hit of the same rank in [b]. *)
Definition all_hits zero b (P : list N) (k : N) : Prop :=
  forall i p, k <= i -> getN P i = Some p -> fz zero b p = true /\ cnt (fz zero b) p = i.

Lemma sparse_loop_ok zero a b ra rb fuel it k : wf a -> wf b -> rs_good a ra -> rs_good b rb ->
  blen a = blen b -> sel_R zero a ra it (dropN k (posz zero a)) ->
  (N.to_nat (lenN (posz zero a) - k) < fuel)%nat \/ (N.to_nat (lenN (posz zero a) - k) = fuel)%nat ->
  exists r, sparse_loop fuel zero ra rb it k = Ok r /\ (r = true <-> all_hits zero b (posz zero a) k).
Proof.
  intros Ha Hb Ga Gb E. revert it k. induction fuel as [|fuel IH]; intros it k R Hf;
    destruct (sel_next_ok zero a ra Ha Ga it _ R) as (it' & En & R'); cbn [sparse_loop]; rewrite En; cbn [bind];
    rewrite getN_dropN, N.add_0_r.
  - rewrite getN_none by lia. exists true. split; auto. split; auto. intros _ i p Hi Hp.
    rewrite getN_none in Hp by lia. discriminate.
  - destruct (getN (posz zero a) k) as [p|] eqn:Ep.
    2:{ exists true. split; auto. split; auto. intros _ i p Hi Hp. apply getN_none_inv in Ep.
        rewrite getN_none in Hp by lia. discriminate. }
    pose proof (posz_hit _ _ _ _ Ep) as (Hp & _ & _).
    rewrite (rs_get_unchecked_ok b) by (auto; lia). cbn [bind].
    assert (Ez : negb (Bool.eqb (bitN (bit_at (bdata b) p) =? 0) zero) = negb (fz zero b p)).
    { unfold fz, zbit. destruct (bit_at (bdata b) p) eqn:Eb, zero; cbn; rewrite ?Eb; reflexivity. }
    rewrite Ez. destruct (fz zero b p) eqn:Ef; cbn [negb].
    2:{ exists false. split; auto. split; [discriminate|]. intros H. destruct (H k p) as [H1 _]; auto; try lia; congruence. }
    rewrite (rs_rank_ok b) by auto. cbn [bind]. rewrite N.min_l by lia. fold (fz zero b).
    destruct (N.eqb_spec (cnt (fz zero b) p) k) as [Ec|Ec]; cbn [negb].
    2:{ exists false. split; auto. split; [discriminate|]. intros H. destruct (H k p) as [_ H1]; auto; try lia; congruence. }
    assert (Hlt : k < lenN (posz zero a)) by (eapply getN_some_lt; eauto).
    rewrite dropN_dropN in R'. destruct (IH it' (k + 1) R') as (r & Er & Hr); [lia|].
    exists r. split; auto. rewrite Hr. split; intros H i q Hi Hq.
    + destruct (N.eqb_spec i k) as [->|]; [|apply H; auto; lia]. rewrite Ep in Hq. injection Hq as <-. auto.
    + apply H; auto. lia.
Qed.

Lemma positions_inj (v : bool) l m : lenN l = lenN m -> positions v l = positions v m -> l = m.
Proof.
  intros E H. apply list_ext with (d := negb v); auto. intros i Hi.
  assert (X : forall l m, positions v l = positions v m -> i < lenN l -> nthN (negb v) l i = v -> nthN (negb v) m i = v).
  { clear. intros l m H Hi Hv. assert (Hg : getN (positions v l) (count v (takeN i l)) = Some i) by now apply getN_positions.
    rewrite H in Hg. apply getN_positions in Hg. tauto. }
  pose proof (X l m H Hi) as X1. pose proof (X m l (eq_sym H) ltac:(lia)) as X2.
  destruct (nthN (negb v) l i), (nthN (negb v) m i), v; auto; cbn in *; try (now rewrite X1); try (now rewrite X2); auto;
   try (symmetry; now apply X1); try (now apply X2).
Qed.

Lemma all_hits_eq zero a b : blen a = blen b -> lenN (posz zero a) = lenN (posz zero b) ->
  all_hits zero b (posz zero a) 0 -> bits a = bits b.
Proof.
  intros E El H. apply (positions_inj (negb zero)); [now rewrite !lenN_bits|]. fold (posz zero a) (posz zero b).
  apply list_ext with (d := 0); auto. intros i Hi.
  destruct (H i (nthN 0 (posz zero a) i)) as [H1 H2]; [lia|now apply getN_ok|].
  pose proof (posz_hit zero a i (nthN 0 (posz zero a) i) ltac:(now apply getN_ok)) as (Hp & _ & _).
  pose proof (posz_hit zero b i (nthN 0 (posz zero b) i) ltac:(apply getN_ok; lia)) as (Hq & H3 & H4).
  apply (cnt_inj (fz zero b)); auto. congruence.
Qed.

Lemma rs_sparse_equals_ok zero a b ra rb : wf a -> wf b -> rs_good a ra -> rs_good b rb ->
  exists r, rs_sparse_equals zero ra rb = Ok r /\ (r = true <-> bits a = bits b).
Proof.
  intros Ha Hb Ga Gb. unfold rs_sparse_equals.
  pose proof (rank_totals a b ra rb Ga Gb) as HR.
  rewrite (good_len _ _ Ga), (good_len _ _ Gb).
  destruct (N.eqb_spec (blen a) (blen b)) as [E|E]; cbn [negb].
  2:{ exists false. split; auto. split; [discriminate|]. intros H. apply bits_eq_iff in H. tauto. }
  destruct (N.eqb_spec (rrank0 ra) (rrank0 rb)) as [E0|E0]; cbn [negb orb].
  2:{ exists false. split; auto. split; [discriminate|]. intros H. tauto. }
  destruct (N.eqb_spec (rrank1 ra) (rrank1 rb)) as [E1|E1]; cbn [negb orb].
  2:{ exists false. split; auto. split; [discriminate|]. intros H. tauto. }
  clear HR. destruct (sel_new_ok zero a ra Ha Ga) as (it & Ei & R). rewrite Ei. cbn [bind].
  assert (Hlen : lenN (posz zero a) <= blen a) by (rewrite lenN_posz; apply cnt_le).
  destruct (sparse_loop_ok zero a b ra rb (N.to_nat (blen a)) it 0) as (r & Er & Hr); auto; [lia|].
  exists r. split; auto. rewrite Hr. split.
  - apply all_hits_eq; auto. rewrite !lenN_posz. unfold fz. destruct zero.
    + now rewrite <- (good_rank0 _ _ Ga), <- (good_rank0 _ _ Gb).
    + now rewrite <- (good_rank1 _ _ Ga), <- (good_rank1 _ _ Gb).
  - intros H i p _ Hp. unfold posz in Hp. rewrite H in Hp. apply posz_hit in Hp. tauto.
Qed.

Lemma rs_eq_ok a b ra rb : wf a -> wf b -> rs_good a ra -> rs_good b rb ->
  exists r, rs_eq ra rb = Ok r /\ (r = true <-> bits a = bits b).
Proof.
  intros Ha Hb Ga Gb. unfold rs_eq. destruct (_ <? _); [destruct (_ <? _)|];
    [apply rs_sparse_equals_ok|apply rs_sparse_equals_ok|apply rs_full_equals_ok]; auto.
Qed.
