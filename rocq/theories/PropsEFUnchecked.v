(** * C96, C97: the unchecked queries of Elias-Fano vectors. *)
From Verif Require Import Base Spec BaseFacts WordFacts BitVecModel BitVecProofs BitVecProofs2
  RsVecModel RsVecProofs RsVecSelect RsEqProofs EFModel EFProofs EFQuery PropsEF.

(** What [get_unchecked] computes for an index behind the last element of a non-empty vector: it
    takes the length of the upper vector for the position of the element, and reads the low part
    from the unused bits of the last limb. *)
Definition past_end (data : list N) (w i : N) : res N :=
  let n := lenN data in
  let zero := nthN 0 data 0 in
  let top := (nthN 0 data (n - 1) - zero) / 2 ^ w in
  if (i <? 2 + n + top) && ((i + 1) * w <=? 64 * ((n * w + 63) / 64)) then
    let v := ((1 + n + top - i) * 2 ^ w) mod 2 ^ 64 + zero in
    if v <? 2 ^ 64 then Ok v else Panic
  else Panic.

Section Good.
Variables (data : list N) (w : N) (e : ef).
Hypothesis Hs : nondecreasing data.
Hypothesis Hd : Forall (fun x => x < 2 ^ 64) data.
Hypothesis Hne : 0 < lenN data.
Hypothesis Hw : w < 64.
Hypothesis G : ef_good data w e.
Local Notation n := (lenN data).
Local Notation B := (eU data w (n - 1)).

Lemma sel1_over i : n <= i -> rs_select1 (ef_upper e) i = Ok (2 + n + B).
Proof using Hs Hd Hne Hw G.
  intros Hi. destruct (up_bits data w e Hs Hd Hne Hw G) as (bv & H1 & H2 & H3 & H4 & H5). rewrite (rs_select1_ok bv) by auto.
  rewrite select_spec_over; [now rewrite lenN_bits, H3|].
  rewrite count_bits_true, H3, H5 by lia. etransitivity; [apply cnt_le|]. lia.
Qed.
Lemma sel0_over j : B + 1 < j -> rs_select0 (ef_upper e) j = Ok (2 + n + B).
Proof using Hs Hd Hne Hw G.
  intros Hj. destruct (up_bits data w e Hs Hd Hne Hw G) as (bv & H1 & H2 & H3 & H4 & H5). rewrite (rs_select0_ok bv) by auto.
  rewrite select_spec_over; [now rewrite lenN_bits, H3|].
  rewrite count_bits_false, H3, cnt_zbit, H5 by lia. rewrite (cnt_ext _ (fun _ => true)), cnt_true; [lia|].
  intros i Hi. unfold ePos. pose proof (eU_mono data w Hs Hd Hne Hw i (n - 1) ltac:(lia) ltac:(lia)). lia.
Qed.

Lemma get_past i : n <= i -> ef_get_unchecked e i = past_end data w i.
Proof using Hs Hd Hne Hw G.
  intros Hi. unfold ef_get_unchecked, past_end. rewrite sel1_over by auto. cbn [bind].
  rewrite (eg_zero _ _ _ G), (eg_w _ _ _ G), (eg_low_over _ _ _ G i Hi), (eg_low_len _ _ _ G).
  change ((nthN 0 data (n - 1) - nthN 0 data 0) / 2 ^ w) with B. unfold sub.
  assert (EL : ((i + 1) * w <=? 64 * (if w =? 0 then n else (n * w + 63) / 64)) = ((i + 1) * w <=? 64 * ((n * w + 63) / 64))).
  { destruct (N.eqb_spec w 0) as [->|]; auto. rewrite !N.mul_0_r. now destruct (N.leb_spec 0 (64 * n)), (N.leb_spec 0 (64 * ((0 + 63) / 64))); try lia. }
  rewrite EL. clear EL.
  destruct (N.ltb_spec i (2 + n + B)) as [L|L]; cbn [andb].
  - destruct (N.leb_spec i (2 + n + B)); [|lia]. cbn [bind]. destruct (N.leb_spec 1 (2 + n + B - i)); [|lia]. cbn [bind].
    destruct ((i + 1) * w <=? 64 * ((n * w + 63) / 64)); cbn [bind]; auto. unfold shl64_chk. destruct (N.ltb_spec w 64); [|lia]. cbn [bind].
    rewrite N.lor_0_r. unfold add64, shl64. rewrite N.shiftl_mul_pow2. change U64 with (2 ^ 64). replace (2 + n + B - i - 1) with (1 + n + B - i) by lia. reflexivity.
  - destruct (N.leb_spec i (2 + n + B)); cbn [bind]; auto. destruct (N.leb_spec 1 (2 + n + B - i)); [lia|]. reflexivity.
Qed.

Lemma succ_past q : nthN 0 data (n - 1) < q -> ef_successor_unchecked e q =
  let d := N.max 1 ((q - nthN 0 data 0) / 2 ^ w - B) in
  if d <=? n then ef_get_unchecked e (n + 1 - d) else Panic.
Proof using Hs Hd Hne Hw G.
  intros Hm. pose proof (nondecreasing_nth data Hs 0 (n - 1) ltac:(lia) ltac:(lia)) as H0.
  unfold ef_successor_unchecked. rewrite (eg_zero _ _ _ G), (eg_w _ _ _ G).
  destruct (N.ltb_spec q (nthN 0 data 0)); [lia|]. rewrite sub_ok by lia. cbn [bind].
  rewrite N.shiftr_div_pow2, land_lowmask by auto. set (qu := (q - nthN 0 data 0) / 2 ^ w).
  assert (Hqu : B <= qu).
  { unfold eU, eW. apply N.div_le_mono; [now apply N.pow_nonzero|lia]. }
  assert (HC : eC data w (B + 1) = n).
  { apply N.le_antisymm; [now apply eC_le|]. destruct (N.le_gt_cases n (eC data w (B + 1))) as [|Hx]; auto.
    assert (n - 1 < eC data w (B + 1)); [|lia]. apply (eC_lt data w Hs Hd Hne Hw); lia. }
  destruct (up_bits data w e Hs Hd Hne Hw G) as (bv & H1 & H2 & H3 & H4 & H5).
  cbv zeta. destruct (N.eq_dec qu B) as [Eq|Eq].
  - rewrite Eq, (sel0 data w e Hs Hd Hne Hw G) by lia. cbn [bind]. rewrite HC.
    rewrite sub_ok by lia. cbn [bind]. rewrite sub_ok by lia. cbn [bind].
    replace (B + 1 + n - B - 2) with (n - 1) by lia. rewrite N.sub_diag. change (N.max 1 0) with 1.
    destruct (N.leb_spec 1 n); [|lia]. rewrite N.add_sub.
    unfold shl64_chk. destruct (N.ltb_spec w 64); [|lia]. cbn [bind].
    unfold ef_search. cbn [dir]. rewrite sub_ok by lia. cbn [bind]. rewrite (rs_get_unchecked_ok bv) by (auto; lia). cbn [bind].
    assert (Hb : bit_at (bdata bv) (B + 1 + n - 1) = true).
    { apply H4; [lia|]. exists (n - 1). split; [lia|]. unfold ePos. lia. }
    rewrite Hb. cbn [bitN]. change (0 <? 1) with true. cbv iota. rewrite (eg_low _ _ _ G) by lia. cbn [bind].
    assert (Ew : nye false false (N.lor (shl64 B w) (eL data w (n - 1))) (q - nthN 0 data 0) = false).
    { destruct (uL_lt data w e Hs Hd Hne Hw G (n - 1) ltac:(lia)) as (Hu & _ & Es).
      unfold shl64. rewrite N.shiftl_mul_pow2, N.mod_small by (change U64 with (2 ^ 64) in *; exact Hu). rewrite <- N.shiftl_mul_pow2, lor_shift by (now apply (eL_lt data w)).
      rewrite <- Es. unfold nye, eW. lia. }
    rewrite Ew. cbn [bind]. f_equal. lia.
  - rewrite sel0_over by lia. cbn [bind]. unfold sub. destruct (N.leb_spec qu (2 + n + B)) as [L1|L1]; cbn [bind].
    2:{ destruct (N.leb_spec (N.max 1 (qu - B)) n); [lia|]. reflexivity. }
    destruct (N.leb_spec 2 (2 + n + B - qu)) as [L2|L2]; cbn [bind].
    2:{ destruct (N.leb_spec (N.max 1 (qu - B)) n); [lia|]. reflexivity. }
    destruct (N.leb_spec (N.max 1 (qu - B)) n) as [_|]; [|lia].
    unfold shl64_chk. destruct (N.ltb_spec w 64); [|lia]. cbn [bind].
    unfold ef_search. cbn [dir]. rewrite sub_ok by lia. cbn [bind]. rewrite (rs_get_unchecked_ok bv) by (auto; lia). cbn [bind].
    assert (Hb : bit_at (bdata bv) (2 + n + B - 1) = false).
    { apply not_true_iff_false. intros Hb. apply H4 in Hb; [|lia]. destruct Hb as (k & Hk & Ek). unfold ePos in Ek.
      pose proof (eU_mono data w Hs Hd Hne Hw k (n - 1) ltac:(lia) ltac:(lia)). lia. }
    rewrite Hb. cbn [bitN]. change (0 <? 0) with false. cbv iota. cbn [bind]. f_equal. lia.
Qed.
End Good.

(** ** C96 *)
Theorem C96_get_unchecked data w e i :
  nondecreasing data -> Forall (fun x => x < 2 ^ 64) data -> w < 64 -> ef_from_slice w data = Ok e ->
  ef_get_unchecked e i =
    match getN data i with
    | Some x => Ok x
    | None => if lenN data =? 0 then Panic else past_end data w i
    end.
Proof.
  intros Hs Hd Hw E. destruct (ef_built data w e Hs Hd Hw E) as [(-> & En & Ez & Gu)|[Hne G]].
  - rewrite getN_none by (cbn; lia). change (lenN (@nil N) =? 0) with true. cbv iota. unfold ef_get_unchecked.
    rewrite (rs_select1_ok bv_new) by (auto using bv_new_wf). rewrite select_spec_over by (change (count true (bits bv_new)) with 0; lia). cbn [bind]. change (lenN (bits bv_new)) with 0.
    unfold sub. destruct (N.leb_spec i 0); cbn [bind]; auto.
  - destruct (N.eqb_spec (lenN data) 0); [lia|]. destruct (N.ltb_spec i (lenN data)) as [L|L].
    + rewrite (getN_ok 0) by auto. now apply (ef_get_unchecked_ok data w e).
    + rewrite getN_none by auto. now apply get_past.
Qed.

(** The documentation says of an index that exceeds the length: "the function will panic"
    (elias_fano/mod.rs 177-178). *)
Theorem C96_refuted :
  ~ (forall data e i, nondecreasing data -> Forall (fun x => x < 2 ^ 64) data ->
       ef_from_slice (ef_width data) data = Ok e -> lenN data <= i -> ef_get_unchecked e i = Panic).
Proof.
  intros H. destruct ex_ef_ok as (Hs & Hd & Ew). destruct C21_ex as (E & _). rewrite <- Ew in E.
  specialize (H ex_ef ex_efv 7 Hs Hd E ltac:(cbn; lia)). revert H. vm_compute. discriminate.
Qed.

Example C96_ex :
  ef_get_unchecked ex_efv 6 = Ok 90 /\ ef_get_unchecked ex_efv 7 = Ok 103 /\ past_end ex_ef 4 7 = Ok 103 /\
  ef_get_unchecked ex_efv 13 = Ok 7 /\ ef_get_unchecked ex_efv 14 = Panic /\
  (let* e := ef_from_slice 0 [] in ef_get_unchecked e 0) = Panic.
Proof. repeat split; vm_compute; reflexivity. Qed.

(** ** C97 *)
Lemma is_predecessor_uniq l q x o : is_predecessor l q (Some x) -> is_predecessor l q o -> o = Some x.
Proof.
  intros (H1 & H2 & H3) H. destruct o as [y|]; cbn in H.
  - destruct H as (K1 & K2 & K3). f_equal. apply N.le_antisymm; auto.
  - specialize (H x H1). lia.
Qed.
Lemma is_successor_uniq l q x o : is_successor l q (Some x) -> is_successor l q o -> o = Some x.
Proof.
  intros (H1 & H2 & H3) H. destruct o as [y|]; cbn in H.
  - destruct H as (K1 & K2 & K3). f_equal. apply N.le_antisymm; auto.
  - specialize (H x H1). lia.
Qed.

Theorem C97_predecessor_unchecked data w e q :
  nondecreasing data -> Forall (fun x => x < 2 ^ 64) data -> w < 64 -> ef_from_slice w data = Ok e -> q < 2 ^ 64 ->
  (forall x, is_predecessor data q (Some x) -> ef_predecessor_unchecked e q = Ok x) /\
  (is_predecessor data q None -> ef_predecessor_unchecked e q = Panic).
Proof.
  intros Hs Hd Hw E Hq. destruct (C22_predecessor data w e q Hs Hd Hw E Hq) as (o & Eo & Ho). split.
  - intros x Hx. rewrite (is_predecessor_uniq _ _ _ _ Hx Ho) in Eo. unfold ef_predecessor in Eo.
    destruct ((q <? ef_zero e) || (ef_n e =? 0)); [discriminate|]. destruct (ef_predecessor_unchecked e q); cbn [bind] in Eo; congruence.
  - cbn [is_predecessor]. intros Hx. destruct (ef_built data w e Hs Hd Hw E) as [(-> & En & Ez & Gu)|[Hne G]]; unfold ef_predecessor_unchecked.
    + rewrite En, Ez. destruct (ef_max e <? q); [reflexivity|]. rewrite sub_ok by lia. cbn [bind].
      rewrite (rs_select0_ok bv_new) by (auto using bv_new_wf).
      rewrite select_spec_over by (change (count false (bits bv_new)) with 0; lia). change (lenN (bits bv_new)) with 0. cbn [bind].
      unfold sub. destruct (_ <=? 0); cbn [bind]; auto. unfold shl64_chk. destruct (_ <? 64); cbn [bind]; auto.
      unfold ef_search. cbn [dir bind]. unfold rs_get_unchecked. rewrite (good_data _ _ Gu). reflexivity.
    + specialize (Hx (nthN 0 data 0)). rewrite (eg_max _ _ _ G), (eg_zero _ _ _ G).
      assert (Hin : In (nthN 0 data 0) data) by (apply In_nthN; lia). specialize (Hx Hin).
      pose proof (nondecreasing_nth data Hs 0 (lenN data - 1) ltac:(lia) ltac:(lia)).
      destruct (N.ltb_spec (nthN 0 data (lenN data - 1)) q); [lia|]. unfold sub. destruct (N.leb_spec (nthN 0 data 0) q); [lia|]. reflexivity.
Qed.

Theorem C97_successor_unchecked data w e q :
  nondecreasing data -> Forall (fun x => x < 2 ^ 64) data -> w < 64 -> ef_from_slice w data = Ok e -> q < 2 ^ 64 ->
  (forall x, is_successor data q (Some x) -> ef_successor_unchecked e q = Ok x) /\
  (is_successor data q None -> ef_successor_unchecked e q =
     let n := lenN data in
     let zero := nthN 0 data 0 in
     let d := (q - zero) / 2 ^ w - (nthN 0 data (n - 1) - zero) / 2 ^ w in
     if n =? 0 then Panic
     else if d <=? 1 then past_end data w n
     else if d <=? n then Ok (nthN 0 data (n + 1 - d))
     else Panic).
Proof.
  intros Hs Hd Hw E Hq. destruct (C23_successor data w e q Hs Hd Hw E Hq) as (o & Eo & Ho). split.
  - intros x Hx. rewrite (is_successor_uniq _ _ _ _ Hx Ho) in Eo. unfold ef_successor in Eo.
    destruct ((ef_max e <? q) || (ef_n e =? 0)); [discriminate|]. destruct (ef_successor_unchecked e q); cbn [bind] in Eo; congruence.
  - cbn [is_successor]. intros Hx. cbv zeta. destruct (ef_built data w e Hs Hd Hw E) as [(-> & En & Ez & Gu)|[Hne G]].
    + change (lenN (@nil N) =? 0) with true. cbv iota. unfold ef_successor_unchecked. rewrite Ez.
      destruct (N.ltb_spec q 0); [lia|]. rewrite sub_ok by lia. cbn [bind].
      rewrite (rs_select0_ok bv_new) by (auto using bv_new_wf).
      rewrite select_spec_over by (change (count false (bits bv_new)) with 0; lia). change (lenN (bits bv_new)) with 0. cbn [bind].
      unfold sub. destruct (_ <=? 0); cbn [bind]; auto. 
    + destruct (N.eqb_spec (lenN data) 0); [lia|].
      assert (Hm : nthN 0 data (lenN data - 1) < q) by (apply Hx, In_nthN; lia).
      rewrite (succ_past data w e Hs Hd Hne Hw G q Hm). cbv zeta.
      change ((nthN 0 data (lenN data - 1) - nthN 0 data 0) / 2 ^ w) with (eU data w (lenN data - 1)).
      set (d := (q - nthN 0 data 0) / 2 ^ w - eU data w (lenN data - 1)). destruct (N.leb_spec d 1) as [L|L].
      * replace (N.max 1 d) with 1 by lia. destruct (N.leb_spec 1 (lenN data)); [|lia]. rewrite N.add_sub.
        apply (get_past data w e); auto. lia.
      * replace (N.max 1 d) with d by lia. destruct (N.leb_spec d (lenN data)); auto.
        apply (ef_get_unchecked_ok data w e); auto. lia.
Qed.

(** A query above the last element, 90: [successor_unchecked] answers 103, an element below the
    query, or panics. *)
Example C97_ex :
  is_successor ex_ef 91 None /\ ef_successor_unchecked ex_efv 91 = Ok 103 /\ ef_successor_unchecked ex_efv 104 = Ok 103 /\
  ef_successor_unchecked ex_efv 120 = Ok 90 /\ ef_successor_unchecked ex_efv 200 = Ok 7 /\ ef_successor_unchecked ex_efv 300 = Panic /\
  ef_successor_unchecked ex_efv 31 = Ok 31 /\ ef_successor_unchecked ex_efv 0 = Ok 7 /\
  ef_predecessor_unchecked ex_efv 6 = Panic /\ ef_predecessor_unchecked ex_efv 89 = Ok 31 /\ ef_predecessor_unchecked ex_efv 1000 = Ok 90.
Proof. split; [intros y H; cbn in H; lia|]. repeat split; vm_compute; reflexivity. Qed.
