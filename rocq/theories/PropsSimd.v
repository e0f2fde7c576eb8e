(** * Property C68: the AVX-512 block search.

    The vector instructions read only inside the block vector, and [select0], [select1] and the select
    iterators answer the same with them as with the scalar search. *)
From Verif Require Import Base Spec BaseFacts WordFacts BitVecModel BitVecProofs RsVecModel PdepProofs
  RsVecProofs RsVecSelect IterSpec IterFacts RsIterModel RsIterProofs PropsRsVec.

Lemma filter_threshold {A} (dflt : A) f : forall (l : list A) m, m <= lenN l -> (forall i, i < lenN l -> f (nthN dflt l i) = (i <? m)) ->
  lenN (filter f l) = m.
Proof.
  induction l as [|a l IH]; intros m Hm H.
  - cbn in *. change (lenN (@nil A)) with 0 in Hm. change (lenN (@nil A)) with 0. lia.
  - rewrite lenN_cons in Hm, H. assert (E : lenN (filter f l) = m - 1).
    { apply IH; [lia|]. intros i Hi. specialize (H (i + 1) ltac:(lia)). rewrite nthN_cons in H. destruct (N.eqb_spec (i + 1) 0); [lia|]. rewrite N.add_sub in H. rewrite H.
      destruct (N.ltb_spec (i + 1) m), (N.ltb_spec i (m - 1)); auto; lia. }
    pose proof (H 0 ltac:(lia)) as H0. change (nthN dflt (a :: l) 0) with a in H0. cbn [filter]. rewrite H0.
    destruct (N.ltb_spec 0 m); rewrite ?lenN_cons; lia.
Qed.

Section Zero.
Variables (bv : bitvec) (rs : rsvec) (p : N).
Hypothesis Hwf : wf bv.
Hypothesis G : rs_good bv rs.
Hypothesis Hp : p < blen bv.
Local Notation d := (bdata bv).
Local Notation Z := (cnt (zbit d)).
Hypothesis Hb : zbit d p = true.
Lemma search_block0_simd_ok :
  search_block0_simd rs (Z p - Z (8192 * (p / 8192))) (16 * (p / 8192)) = Ok (p / 512).
Proof.
  unfold search_block0_simd. change (SUPER_BLOCK_SIZE / BLOCK_SIZE) with 16.
  destruct (N.ltb_spec (16 * (p / 8192) + 16) (lenN (rblocks rs))) as [L|L]; [|now apply (search_block0_ok bv)].
  rewrite slice_chk_ok by lia. cbn [bind]. replace (16 * (p / 8192) + 16 - 16 * (p / 8192)) with 16 by lia.
  pose proof (cnt_diff_le (zbit d) (8192 * (p / 8192)) p ltac:(dlia)) as Hd.
  rewrite N.mod_small by (change U16 with 65536; dlia).
  rewrite (filter_threshold 0 _ _ (p / 512 - 16 * (p / 8192) + 1)).
  - destruct (N.ltb_spec 0 (p / 512 - 16 * (p / 8192) + 1)); [|lia]. cbn [assert bind]. rewrite sub_ok by lia. cbn [bind].
    f_equal. dlia.
  - rewrite lenN_sliceN by lia. dlia.
  - rewrite lenN_sliceN by lia. intros i Hi. rewrite nthN_sliceN by lia.
    rewrite (block0_cmp bv rs p G Hp Hb) by (auto; dlia).
    destruct (N.leb_spec (16 * (p / 8192) + i) (p / 512)), (N.ltb_spec i (p / 512 - 16 * (p / 8192) + 1)); auto; dlia.
Qed.
End Zero.

Section One.
Variables (bv : bitvec) (rs : rsvec) (p : N).
Hypothesis Hwf : wf bv.
Hypothesis G : rs_good bv rs.
Hypothesis Hp : p < blen bv.
Local Notation d := (bdata bv).
Local Notation O := (cnt (bit_at d)).
Hypothesis Hb : bit_at d p = true.
Lemma search_block1_simd_ok :
  search_block1_simd rs (O p - O (8192 * (p / 8192))) (16 * (p / 8192)) (16 * (p / 8192)) = Ok (p / 512).
Proof.
  unfold search_block1_simd. change BLOCK_SIZE with 512.
  destruct (N.ltb_spec (16 * (p / 8192) + 16) (lenN (rblocks rs))) as [L|L]; [|now apply (search_block1_ok bv)].
  rewrite slice_chk_ok by lia. cbn [bind]. replace (16 * (p / 8192) + 16 - 16 * (p / 8192)) with 16 by lia.
  pose proof (cnt_diff_le (bit_at d) (8192 * (p / 8192)) p ltac:(dlia)) as Hd.
  rewrite (N.mod_small (_ - _)) by (change U16 with 65536; dlia).
  assert (Hlen : lenN (combine (range 0 16) (sliceN (16 * (p / 8192)) 16 (rblocks rs))) = 16).
  { unfold lenN. rewrite combine_length. pose proof (lenN_range 0 16) as H1. pose proof (lenN_sliceN (16 * (p / 8192)) 16 (rblocks rs) ltac:(lia)) as H2.
    unfold lenN in H1, H2. lia. }
  rewrite (filter_threshold 0 _ _ (p / 512 - 16 * (p / 8192) + 1)).
  - destruct (N.ltb_spec 0 (p / 512 - 16 * (p / 8192) + 1)); [|lia]. cbn [assert bind]. rewrite sub_ok by lia. cbn [bind].
    f_equal. dlia.
  - rewrite lenN_map, Hlen. dlia.
  - rewrite lenN_map, Hlen. intros i Hi. rewrite (nthN_map _ (0, 0)) by lia.
    assert (E : nthN (0, 0) (combine (range 0 16) (sliceN (16 * (p / 8192)) 16 (rblocks rs))) i = (i, nthN 0 (rblocks rs) (16 * (p / 8192) + i))).
    { unfold nthN at 1. rewrite combine_nth.
      - change (nth (N.to_nat i) (range 0 16) 0) with (nthN 0 (range 0 16) i). rewrite nthN_range by lia.
        change (nth (N.to_nat i) ?l 0) with (nthN 0 l i). rewrite nthN_sliceN by lia. reflexivity.
      - pose proof (lenN_range 0 16) as H1. pose proof (lenN_sliceN (16 * (p / 8192)) 16 (rblocks rs) ltac:(lia)) as H2.
        unfold lenN in H1, H2. lia. }
    rewrite E. set (b := 16 * (p / 8192) + i) in *.
    pose proof (block_ones bv rs p G Hp Hb b ltac:(lia) ltac:(unfold b; dlia)) as Hbo.
    replace (b - 16 * (p / 8192)) with i in Hbo by (unfold b; lia). unfold sub in Hbo.
    destruct (N.leb_spec (nthN 0 (rblocks rs) b) (i * 512)) as [Hle|Hle]; [|discriminate]. injection Hbo as Hbo.
    replace ((i * 512 + U16 - nthN 0 (rblocks rs) b) mod U16) with (i * 512 - nthN 0 (rblocks rs) b).
    2: { replace (i * 512 + U16 - nthN 0 (rblocks rs) b) with (i * 512 - nthN 0 (rblocks rs) b + 1 * U16) by lia.
         rewrite N.mod_add by (change U16 with 65536; lia). rewrite N.mod_small; auto. change U16 with 65536. lia. }
    rewrite Hbo. 
    assert (M1 : O (8192 * (p / 8192)) <= O (512 * b)) by (apply cnt_mono; unfold b; dlia).
    assert (M2 : O (8192 * (p / 8192)) <= O p) by (apply cnt_mono; dlia).
    pose proof (cnt_leb (bit_at d) p (512 * b) Hb) as Hc.
    destruct (N.leb_spec (O (512 * b)) (O p)), (N.leb_spec (512 * b) p); try discriminate;
    destruct (N.leb_spec (O (512 * b) - O (8192 * (p / 8192))) (O p - O (8192 * (p / 8192)))),
      (N.ltb_spec i (p / 512 - 16 * (p / 8192) + 1)); auto; unfold b in *; try (exfalso; dlia).
Qed.
End One.

(** ** C68 *)
Theorem C68_select bv rs k :
  wf bv -> rs_from_bit_vec bv = Ok rs ->
  rs_select1_simd rs k = Ok (select_spec true (bits bv) k) /\
  rs_select0_simd rs k = Ok (select_spec false (bits bv) k).
Proof.
  intros H E. pose proof (built bv rs H E) as G. split.
  - destruct (N.le_gt_cases (count true (bits bv)) k) as [L|L].
    + rewrite select_spec_over, lenN_bits by auto. rewrite count_bits_true in L.
      unfold rs_select1_simd, rs_select1_with. rewrite (good_rank1 _ _ G).
      destruct (N.leb_spec (cnt (bit_at (bdata bv)) (blen bv)) k); [|lia]. now rewrite (good_len _ _ G).
    + rewrite count_bits_true in L. destruct (cnt_exists _ _ _ L) as (p & Hp & Hb & <-).
      pose proof (bits_select_hit true bv p Hp Hb) as Es. cbn in Es. rewrite Es.
      apply (rs_select1_with_hit bv); auto. now apply search_block1_simd_ok.
  - destruct (N.le_gt_cases (count false (bits bv)) k) as [L|L].
    + rewrite select_spec_over, lenN_bits by auto. rewrite count_bits_false in L.
      unfold rs_select0_simd, rs_select0_with. rewrite (good_rank0 _ _ G).
      destruct (N.leb_spec (cnt (zbit (bdata bv)) (blen bv)) k); [|lia]. now rewrite (good_len _ _ G).
    + rewrite count_bits_false in L. destruct (cnt_exists _ _ _ L) as (p & Hp & Hb & <-).
      assert (bit_at (bdata bv) p = false) by (unfold zbit in Hb; now destruct (bit_at _ p)).
      pose proof (bits_select_hit false bv p Hp ltac:(auto)) as Es. cbn in Es. rewrite Es.
      apply (rs_select0_with_hit bv); auto. now apply search_block0_simd_ok.
Qed.

(** In every reachable iterator state the two builds make the same step, to the same state. *)
Theorem C68_iter zero bv rs it l :
  wf bv -> rs_from_bit_vec bv = Ok rs ->
  sel_reach zero rs it l (positions (negb zero) (bits bv)) ->
  sel_next_simd zero rs it = sel_next zero rs it /\ sel_next_back_simd zero rs it = sel_next_back zero rs it.
Proof.
  intros H E Hr. pose proof (built bv rs H E) as G. apply (reach_R zero bv rs it l H E) in Hr.
  destruct Hr as [R1 R2 R3 R4 R5 R6 R7]. destruct (N.eq_dec (sel_len it) 0) as [L|L].
  - unfold sel_len in L. split.
    + unfold sel_next_simd, sel_next, select_next_0, select_next_1, select_next_0_with, select_next_1_with.
      assert (X : match it_back it with Some b => b <? it_rank it | None => true end = true).
      { destruct (it_back it); auto. apply N.ltb_lt. lia. }
      rewrite X, !orb_true_r. now destruct zero.
    + unfold sel_next_back_simd, sel_next_back, select_next_0_back, select_next_1_back, select_next_0_back_with, select_next_1_back_with.
      destruct (it_back it) as [b|]; [|now destruct zero].
      destruct (N.ltb_spec b (it_rank it)); [now destruct zero|lia].
  - assert (Eb : exists b, it_back it = Some b /\ sel_len it = b + 1 - it_rank it).
    { unfold sel_len in *. destruct (it_back it) as [b|]; [eauto|lia]. }
    destruct Eb as (b & Eb & Es). rewrite Es in *. split.
    + set (p := nthN 0 (posz zero bv) (it_rank it)).
      assert (Hg : getN (posz zero bv) (it_rank it) = Some p) by (apply getN_ok; lia).
      pose proof (posz_hit _ _ _ _ Hg) as (Hp & Hf & Hc).
      unfold sel_next_simd, sel_next, select_next_0, select_next_1, fz in *. destruct zero.
      * rewrite !(next0_with_hit bv rs p H G Hp Hf) with (b := b);
          auto using search_block0_ok, search_block0_simd_ok; try lia; apply (R5 (it_rank it)); auto; lia.
      * rewrite !(next1_with_hit bv rs p H G Hp Hf) with (b := b);
          auto using search_block1_ok, search_block1_simd_ok; try lia; apply (R5 (it_rank it)); auto; lia.
    + set (p := nthN 0 (posz zero bv) b).
      assert (Hg : getN (posz zero bv) b = Some p) by (apply getN_ok; lia).
      pose proof (posz_hit _ _ _ _ Hg) as (Hp & Hf & Hc). destruct (R6 ltac:(lia)) as (B1 & B2 & B3).
      pose proof (R7 _ _ _ Eb Hg ltac:(lia)) as B4.
      unfold sel_next_back_simd, sel_next_back, select_next_0_back, select_next_1_back, fz in *. rewrite <- Hc in Eb, L. destruct zero.
      * rewrite !(next0_back_with_hit bv rs p H G Hp Hf); auto using search_block0_ok, search_block0_simd_ok; lia.
      * rewrite !(next1_back_with_hit bv rs p H G Hp Hf); auto using search_block1_ok, search_block1_simd_ok; lia.
Qed.

(** More than one super block, so that the vector instructions are used. *)
Definition ex_simd : bitvec := mkbv (repeat 0x8000000000000001 137) 8760.
Example C68_ex :
  match rs_from_bit_vec ex_simd with
  | Ok rs => lenN (rblocks rs) = 18 /\ search_block1_simd rs 100 0 0 = Ok 6 /\
      rs_select1_simd rs 100 = Ok 3200 /\ rs_select0_simd rs 8000 = Ok 8259 /\
      match sel_new false rs with
      | Ok it => match sel_next_simd false rs (with_rank it 20) with Ok (_, o) => o = Some 640 | _ => False end
      | _ => False
      end
  | _ => False
  end.
Proof. vm_compute. auto 12. Qed.
