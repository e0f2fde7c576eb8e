(** * Proofs about the select iterators. *)
From Verif Require Import Base Spec BaseFacts WordFacts BitVecModel BitVecProofs RsVecModel
  PdepProofs RsVecProofs RsVecSelect IterSpec IterFacts RsIterModel.

(** ** Zeros *)
Section Zero.
Variables (bv : bitvec) (rs : rsvec) (p : N).
Hypothesis Hwf : wf bv.
Hypothesis G : rs_good bv rs.
Hypothesis Hp : p < blen bv.
Let d := bdata bv.
Let Z := cnt (zbit d).
Hypothesis Hb : zbit d p = true.

Lemma sel0_entry : Z p / 8192 < lenN (rsel rs) /\ g0 (rsel rs) (Z p / 8192) <= p / 8192.
Proof.
  assert (Hr : Z p < Z (blen bv)) by now apply cnt_lt.
  destruct (good_sel0 _ _ G (Z p) Hr) as (S1 & S2 & S3 & S4). fold d Z in S4. split; [lia|].
  apply N.leb_le in S4. unfold Z in S4. rewrite cnt_leb in S4 by auto. apply N.leb_le in S4. fold Z in S4. dlia.
Qed.
Lemma search_super_block0_ok :
  search_super_block0 rs (g0 (rsel rs) (Z p / 8192)) (Z p) = Ok (p / 8192).
Proof.
  assert (Hr : Z p < Z (blen bv)) by now apply cnt_lt.
  destruct (good_sel0 _ _ G (Z p) Hr) as (S1 & S2 & S3 & S4).
  destruct sel0_entry as [_ Hsb]. pose proof (n_supers_in bv rs p Hwf G Hp) as Hns.
  unfold search_super_block0. change SELECT_BLOCK_SIZE with 8192. rewrite (idx_ok (0, 0)) by auto.
  cbn [bind]. fold (g0 (rsel rs) (Z p / 8192 + 1)).
  destruct (search_super0_bin_ok bv rs p G Hp Hb (S (N.to_nat (g0 (rsel rs) (Z p / 8192 + 1))))
     (g0 (rsel rs) (Z p / 8192)) (g0 (rsel rs) (Z p / 8192 + 1))) as (sb' & E & Hsb'); auto; try lia.
  fold d Z in E. rewrite E. cbn [bind]. apply (search_super0_lin_ok bv); auto. unfold lenN in Hns. lia.
Qed.

Lemma block0_val : nthN 0 (rblocks rs) (p / 512) = Z (512 * (p / 512)) - Z (8192 * (p / 8192)).
Proof.
  rewrite (good_blocks _ _ G) by now apply (n_blocks_in bv). fold d Z.
  now replace (p / 512 / 16) with (p / 8192) by dlia.
Qed.

Variable search : rsvec -> N -> N -> res N.
Hypothesis Hblock : search rs (Z p - Z (8192 * (p / 8192))) (16 * (p / 8192)) = Ok (p / 512).

Lemma fin0_ok (st : N -> sel_iter) b0 bi r :
  (r = Z p - Z (8192 * (p / 8192)) /\ bi = 0) \/
  (r = Z p - Z (512 * (p / 512)) /\ bi = p / 512 /\ b0 = p / 512) ->
  (let* '(b, rank, bi) :=
      if bi =? 0 then
        let* bi := search rs r (p / 8192 * (SUPER_BLOCK_SIZE / BLOCK_SIZE)) in
        let* z := idx (rblocks rs) bi in
        let* rank := sub r z in
        Ok (bi, rank, bi)
      else Ok (b0, r, bi) in
   let* q := search_word_in_block0 rs rank bi in
   Ok (st b, Some q)) = Ok (st (p / 512), Some p).
Proof.
  intros H. pose proof (n_blocks_in bv rs p Hwf G Hp) as Hnb.
  pose proof (search_word0_ok bv rs p Hwf G Hp Hb) as Hword. fold d Z in Hword.
  change (SUPER_BLOCK_SIZE / BLOCK_SIZE) with 16.
  assert (M1 : Z (8192 * (p / 8192)) <= Z (512 * (p / 512))) by (apply cnt_mono; dlia).
  assert (M2 : Z (512 * (p / 512)) <= Z p) by (apply cnt_mono; dlia).
  assert (Hz : bi = 0 -> r = Z p - Z (8192 * (p / 8192))).
  { intros E. destruct H as [[? ?]|(-> & ? & ?)]; auto. f_equal. f_equal. dlia. }
  destruct (N.eqb_spec bi 0) as [E|E].
  - rewrite (Hz E), (N.mul_comm (p / 8192) 16), Hblock. cbn [bind].
    rewrite (idx_ok 0) by auto. cbn [bind]. rewrite block0_val, sub_ok by lia. cbn [bind].
    replace (Z p - Z (8192 * (p / 8192)) - (Z (512 * (p / 512)) - Z (8192 * (p / 8192))))
      with (Z p - Z (512 * (p / 512))) by lia.
    rewrite Hword. reflexivity.
  - destruct H as [[? ?]|(-> & -> & ->)]; [congruence|]. cbn [bind]. now rewrite Hword.
Qed.

Lemma next0_with_hit it b : it_rank it = Z p -> it_back it = Some b -> it_rank it <= b ->
  it_b it / 16 = it_sb it -> 512 * it_b it <= p ->
  select_next_0_with search rs it =
  Ok (mkit (it_rank it + 1) (it_back it) (p / 8192) (it_sbb it) (p / 512) (it_bb it), Some p).
Proof.
  intros Hr Hbk Hle H16 H512. unfold select_next_0_with.
  assert (Hrk : Z p < Z (blen bv)) by now apply cnt_lt.
  rewrite (good_rank0 _ _ G), Hbk, Hr. fold d Z. change SELECT_BLOCK_SIZE with 8192.
  destruct (N.leb_spec (Z (blen bv)) (Z p)); [lia|].
  destruct (N.ltb_spec b (Z p)); [lia|]. cbn [orb].
  destruct sel0_entry as [Hse1 Hse2].
  rewrite (idx_ok (0, 0)) by auto. cbn [bind].
  pose proof (n_supers_in bv rs p Hwf G Hp) as Hns. pose proof (n_blocks_in bv rs p Hwf G Hp) as Hnb.
  assert (Hsb : it_sb it <= p / 8192) by dlia.
  assert (M1 : Z (8192 * (p / 8192)) <= Z (512 * (p / 512))) by (apply cnt_mono; dlia).
  assert (M2 : Z (512 * (p / 512)) <= Z p) by (apply cnt_mono; dlia).
  match goal with |- context [bind (if ?c then ?a else ?b) _] => set (go := if c then a else b) end.
  assert (Ego : exists c, go = Ok c /\ (c = true -> it_sb it = p / 8192)).
  { unfold go. destruct (N.ltb_spec (it_sb it + 1) (lenN (rsupers rs))).
    - rewrite (idx_ok 0) by auto. cbn [bind].
      eexists. split; [reflexivity|]. rewrite N.ltb_antisym.
      pose proof (super0_cmp bv rs p G Hp Hb _ H1) as E. fold d Z in E. rewrite E. intros Hc.
      destruct (N.leb_spec (it_sb it + 1) (p / 8192)); [discriminate|]. lia.
    - exists false. split; auto. discriminate. }
  destruct Ego as (c & -> & Hc). cbn [bind].
  match goal with |- context [bind (if c then ?a else ?b) _] => set (mid := if c then a else b) end.
  assert (Emid : exists r bi, mid = Ok (p / 8192, r, bi) /\
    ((r = Z p - Z (8192 * (p / 8192)) /\ bi = 0) \/
     (r = Z p - Z (512 * (p / 512)) /\ bi = p / 512 /\ it_b it = p / 512))).
  { unfold mid. destruct c.
    - specialize (Hc eq_refl). rewrite Hc. rewrite (idx_ok 0) by auto. cbn [bind].
      rewrite (good_supers _ _ G) by auto. fold d Z. rewrite sub_ok by lia. cbn [bind].
      change (SUPER_BLOCK_SIZE / BLOCK_SIZE) with 16.
      match goal with |- context [bind (if ?c then ?a else ?b) _] => set (hit := if c then a else b) end.
      assert (Eh : exists h, hit = Ok h /\ (h = true -> it_b it = p / 512)).
      { unfold hit. destruct (N.eqb_spec (it_b it mod 16) 15).
        - exists true. split; auto. intros _. dlia.
        - destruct (N.ltb_spec (it_b it + 1) (lenN (rblocks rs))).
          + rewrite (idx_ok 0) by auto. cbn [bind]. eexists. split; [reflexivity|].
            rewrite N.ltb_antisym.
            pose proof (block0_cmp bv rs p G Hp Hb (it_b it + 1) ltac:(auto) ltac:(dlia)) as E.
            fold d Z in E. rewrite E. intros Hh.
            destruct (N.leb_spec (it_b it + 1) (p / 512)); [discriminate|]. dlia.
          + exists false. split; auto. discriminate. }
      destruct Eh as (h & -> & Hh). cbn [bind]. destruct h.
      + rewrite (Hh eq_refl). rewrite (idx_ok 0) by auto. cbn [bind]. rewrite block0_val.
        rewrite sub_ok by lia. cbn [bind]. eexists _, _. split; [reflexivity|]. right.
        repeat split. lia.
      + eexists _, _. split; [reflexivity|]. left. auto.
    - fold (g0 (rsel rs) (Z p / 8192)). rewrite search_super_block0_ok. cbn [bind].
      rewrite (idx_ok 0) by auto. cbn [bind].
      rewrite (good_supers _ _ G) by auto. fold d Z. rewrite sub_ok by lia. cbn [bind].
      eexists _, _. split; [reflexivity|]. left. auto. }
  destruct Emid as (r & bi & -> & Hrb). cbn [bind].
  apply (fin0_ok (fun b => mkit (Z p + 1) (Some _) (p / 8192) (it_sbb it) b (it_bb it))). auto.
Qed.

Lemma next0_back_with_hit it : it_back it = Some (Z p) -> it_rank it <= Z p ->
  it_bb it / 16 = it_sbb it -> it_bb it < lenN (rblocks rs) -> it_sbb it < lenN (rsupers rs) ->
  p / 512 <= it_bb it ->
  select_next_0_back_with search rs it =
  Ok (mkit (it_rank it) (if 0 <? Z p then Some (Z p - 1) else None)
        (it_sb it) (p / 8192) (it_b it) (p / 512), Some p).
Proof.
  intros Hbk Hle H16 Hbb Hsbb H512. unfold select_next_0_back_with. rewrite Hbk.
  destruct (N.ltb_spec (Z p) (it_rank it)); [lia|].
  change SELECT_BLOCK_SIZE with 8192. destruct sel0_entry as [Hse1 Hse2].
  rewrite (idx_ok (0, 0)) by auto. cbn [bind]. rewrite (idx_ok 0) by auto. cbn [bind].
  pose proof (n_supers_in bv rs p Hwf G Hp) as Hns. pose proof (n_blocks_in bv rs p Hwf G Hp) as Hnb.
  assert (M1 : Z (8192 * (p / 8192)) <= Z (512 * (p / 512))) by (apply cnt_mono; dlia).
  assert (M2 : Z (512 * (p / 512)) <= Z p) by (apply cnt_mono; dlia).
  match goal with |- context [bind (if ?c then ?a else ?b) _] => set (mid := if c then a else b) end.
  assert (Emid : exists r bi, mid = Ok (p / 8192, r, bi) /\
    ((r = Z p - Z (8192 * (p / 8192)) /\ bi = 0) \/
     (r = Z p - Z (512 * (p / 512)) /\ bi = p / 512 /\ it_bb it = p / 512))).
  { unfold mid. destruct (N.ltb_spec (nthN 0 (rsupers rs) (it_sbb it)) (Z p)) as [L|L].
    - assert (Es : it_sbb it = p / 8192).
      { pose proof (super0_cmp bv rs p G Hp Hb _ Hsbb) as E. fold d Z in E.
        destruct (N.leb_spec (nthN 0 (rsupers rs) (it_sbb it)) (Z p)); [|lia].
        destruct (N.leb_spec (it_sbb it) (p / 8192)); [|discriminate]. dlia. }
      rewrite Es. rewrite (good_supers _ _ G) by auto. fold d Z. rewrite sub_ok by lia. cbn [bind].
      rewrite (idx_ok 0) by auto. cbn [bind].
      pose proof (block0_cmp bv rs p G Hp Hb (it_bb it) ltac:(auto) ltac:(lia)) as E. fold d Z in E.
      rewrite E. destruct (N.leb_spec (it_bb it) (p / 512)).
      + assert (E2 : it_bb it = p / 512) by lia. rewrite E2, block0_val.
        rewrite sub_ok by lia. cbn [bind]. eexists _, _. split; [reflexivity|]. right.
        repeat split. lia.
      + eexists _, _. split; [reflexivity|]. left. auto.
    - fold (g0 (rsel rs) (Z p / 8192)). rewrite search_super_block0_ok. cbn [bind].
      rewrite (idx_ok 0) by auto. cbn [bind].
      rewrite (good_supers _ _ G) by auto. fold d Z. rewrite sub_ok by lia. cbn [bind].
      eexists _, _. split; [reflexivity|]. left. auto. }
  destruct Emid as (r & bi & -> & Hrb). cbn [bind].
  apply (fin0_ok (fun b => mkit (it_rank it) _ (it_sb it) (p / 8192) (it_b it) b)). auto.
Qed.
End Zero.

(** ** Ones *)
Section One.
Variables (bv : bitvec) (rs : rsvec) (p : N).
Hypothesis Hwf : wf bv.
Hypothesis G : rs_good bv rs.
Hypothesis Hp : p < blen bv.
Let d := bdata bv.
Let O := cnt (bit_at d).
Hypothesis Hb : bit_at d p = true.

Lemma sel1_entry : O p / 8192 < lenN (rsel rs) /\ g1 (rsel rs) (O p / 8192) <= p / 8192.
Proof.
  assert (Hr : O p < O (blen bv)) by now apply cnt_lt.
  destruct (good_sel1 _ _ G (O p) Hr) as (S1 & S2 & S3 & S4). fold d O in S4. split; [lia|].
  apply N.leb_le in S4. unfold O in S4. rewrite cnt_leb in S4 by auto. apply N.leb_le in S4. fold O in S4. dlia.
Qed.
Lemma search_super_block1_ok :
  search_super_block1 rs (g1 (rsel rs) (O p / 8192)) (O p) = Ok (p / 8192).
Proof.
  assert (Hr : O p < O (blen bv)) by now apply cnt_lt.
  destruct (good_sel1 _ _ G (O p) Hr) as (S1 & S2 & S3 & S4).
  destruct sel1_entry as [_ Hsb]. pose proof (n_supers_in bv rs p Hwf G Hp) as Hns.
  unfold search_super_block1. change SELECT_BLOCK_SIZE with 8192. rewrite (idx_ok (0, 0)) by auto.
  cbn [bind]. fold (g1 (rsel rs) (O p / 8192 + 1)).
  destruct (search_super1_bin_ok bv rs p G Hp Hb (S (N.to_nat (g1 (rsel rs) (O p / 8192 + 1))))
     (g1 (rsel rs) (O p / 8192)) (g1 (rsel rs) (O p / 8192 + 1))) as (sb' & E & Hsb'); auto; try lia.
  fold d O in E. rewrite E. cbn [bind]. apply (search_super1_lin_ok bv); auto. unfold lenN in Hns. lia.
Qed.

Lemma my_super_ones s : s < lenN (rsupers rs) -> sub (s * 8192) (nthN 0 (rsupers rs) s) = Ok (O (8192 * s)).
Proof. apply (super_ones bv rs p); auto. Qed.
Lemma my_block_ones b : b < lenN (rblocks rs) -> b / 16 = p / 8192 ->
  sub ((b - p / 8192 * 16) * 512) (nthN 0 (rblocks rs) b) = Ok (O (512 * b) - O (8192 * (p / 8192))).
Proof. rewrite (N.mul_comm (p / 8192) 16). apply (block_ones bv rs p); auto. Qed.

Variable search : rsvec -> N -> N -> N -> res N.
Hypothesis Hblock : search rs (O p - O (8192 * (p / 8192))) (16 * (p / 8192)) (16 * (p / 8192)) = Ok (p / 512).

Lemma fin1_ok (st : N -> sel_iter) b0 bi r :
  (r = O p - O (8192 * (p / 8192)) /\ bi = 0) \/
  (r = O p - O (512 * (p / 512)) /\ bi = p / 512 /\ b0 = p / 512) ->
  (let* '(b, rank, bi) :=
      if bi =? 0 then
        let* bi := search rs r (p / 8192 * (SUPER_BLOCK_SIZE / BLOCK_SIZE))
                                      (p / 8192 * (SUPER_BLOCK_SIZE / BLOCK_SIZE)) in
        let* rel := sub bi (p / 8192 * (SUPER_BLOCK_SIZE / BLOCK_SIZE)) in
        let* z := idx (rblocks rs) bi in
        let* o := sub (rel * BLOCK_SIZE) z in
        let* rank := sub r o in
        Ok (bi, rank, bi)
      else Ok (b0, r, bi) in
   let* q := search_word_in_block1 rs rank bi in
   Ok (st b, Some q)) = Ok (st (p / 512), Some p).
Proof.
  intros H. pose proof (n_blocks_in bv rs p Hwf G Hp) as Hnb.
  pose proof (search_word1_ok bv rs p Hwf G Hp Hb) as Hword. fold d O in Hword.
  change (SUPER_BLOCK_SIZE / BLOCK_SIZE) with 16. change BLOCK_SIZE with 512.
  assert (M1 : O (8192 * (p / 8192)) <= O (512 * (p / 512))) by (apply cnt_mono; dlia).
  assert (M2 : O (512 * (p / 512)) <= O p) by (apply cnt_mono; dlia).
  assert (Hz : bi = 0 -> r = O p - O (8192 * (p / 8192))).
  { intros E. destruct H as [[? ?]|(-> & ? & ?)]; auto. f_equal. f_equal. dlia. }
  destruct (N.eqb_spec bi 0) as [E|E].
  - rewrite (Hz E). rewrite (N.mul_comm (p / 8192) 16) at 1 2. rewrite Hblock. cbn [bind].
    rewrite sub_ok by dlia. cbn [bind].
    rewrite (idx_ok 0) by auto. cbn [bind]. rewrite my_block_ones by (auto; dlia). cbn [bind].
    rewrite sub_ok by lia. cbn [bind].
    replace (O p - O (8192 * (p / 8192)) - (O (512 * (p / 512)) - O (8192 * (p / 8192))))
      with (O p - O (512 * (p / 512))) by lia.
    rewrite Hword. reflexivity.
  - destruct H as [[? ?]|(-> & -> & ->)]; [congruence|]. cbn [bind]. now rewrite Hword.
Qed.

Lemma next1_with_hit it b : it_rank it = O p -> it_back it = Some b -> it_rank it <= b ->
  it_b it / 16 = it_sb it -> 512 * it_b it <= p ->
  select_next_1_with search rs it =
  Ok (mkit (it_rank it + 1) (it_back it) (p / 8192) (it_sbb it) (p / 512) (it_bb it), Some p).
Proof.
  intros Hr Hbk Hle H16 H512. unfold select_next_1_with.
  assert (Hrk : O p < O (blen bv)) by now apply cnt_lt.
  rewrite (good_rank1 _ _ G), Hbk, Hr. fold d O.
  destruct (N.leb_spec (O (blen bv)) (O p)); [lia|].
  destruct (N.ltb_spec b (O p)); [lia|]. cbn [orb].
  change SELECT_BLOCK_SIZE with 8192. change SUPER_BLOCK_SIZE with 8192 at 1.
  destruct sel1_entry as [Hse1 Hse2].
  rewrite (idx_ok (0, 0)) by auto. cbn [bind].
  pose proof (n_supers_in bv rs p Hwf G Hp) as Hns. pose proof (n_blocks_in bv rs p Hwf G Hp) as Hnb.
  assert (Hsb : it_sb it <= p / 8192) by dlia.
  assert (M1 : O (8192 * (p / 8192)) <= O (512 * (p / 512))) by (apply cnt_mono; dlia).
  assert (M2 : O (512 * (p / 512)) <= O p) by (apply cnt_mono; dlia).
  match goal with |- context [bind (if ?c then ?a else ?b) _] => set (go := if c then a else b) end.
  assert (Ego : exists c, go = Ok c /\ (c = true -> it_sb it = p / 8192)).
  { unfold go. destruct (N.ltb_spec (it_sb it + 1) (lenN (rsupers rs))).
    - rewrite (idx_ok 0) by auto. cbn [bind]. rewrite my_super_ones by auto. cbn [bind].
      eexists. split; [reflexivity|]. rewrite N.ltb_antisym.
      pose proof (super1_cmp bv p Hp Hb (it_sb it + 1)) as E. fold d O in E. rewrite E. intros Hc.
      destruct (N.leb_spec (it_sb it + 1) (p / 8192)); [discriminate|]. lia.
    - exists false. split; auto. discriminate. }
  destruct Ego as (c & -> & Hc). cbn [bind].
  match goal with |- context [bind (if c then ?a else ?b) _] => set (mid := if c then a else b) end.
  assert (Emid : exists r bi, mid = Ok (p / 8192, r, bi) /\
    ((r = O p - O (8192 * (p / 8192)) /\ bi = 0) \/
     (r = O p - O (512 * (p / 512)) /\ bi = p / 512 /\ it_b it = p / 512))).
  { unfold mid. change (SUPER_BLOCK_SIZE / BLOCK_SIZE) with 16.
    change SUPER_BLOCK_SIZE with 8192. change BLOCK_SIZE with 512. destruct c.
    - specialize (Hc eq_refl). rewrite Hc. rewrite (idx_ok 0) by auto. cbn [bind].
      rewrite my_super_ones by auto. cbn [bind]. rewrite sub_ok by lia. cbn [bind].
      match goal with |- context [bind (if ?c then ?a else ?b) _] => set (hit := if c then a else b) end.
      assert (Eh : exists h, hit = Ok h /\ (h = true -> it_b it = p / 512)).
      { unfold hit. destruct (N.eqb_spec (it_b it mod 16) 15).
        - exists true. split; auto. intros _. dlia.
        - destruct (N.ltb_spec (it_b it + 1) (lenN (rblocks rs))).
          + rewrite sub_ok by dlia. cbn [bind].
            rewrite (idx_ok 0) by auto. cbn [bind]. rewrite my_block_ones by (auto; dlia). cbn [bind].
            eexists. split; [reflexivity|]. rewrite N.ltb_antisym.
            pose proof (block1_cmp bv p Hp Hb (it_b it + 1) ltac:(dlia)) as E.
            fold d O in E. rewrite E. intros Hh.
            destruct (N.leb_spec (it_b it + 1) (p / 512)); [discriminate|]. dlia.
          + exists false. split; auto. discriminate. }
      destruct Eh as (h & -> & Hh). cbn [bind]. destruct h.
      + rewrite (Hh eq_refl). rewrite sub_ok by dlia. cbn [bind].
        rewrite (idx_ok 0) by auto. cbn [bind]. rewrite my_block_ones by (auto; dlia). cbn [bind].
        rewrite sub_ok by lia. cbn [bind]. eexists _, _. split; [reflexivity|]. right.
        repeat split. lia.
      + eexists _, _. split; [reflexivity|]. left. auto.
    - fold (g1 (rsel rs) (O p / 8192)). rewrite search_super_block1_ok. cbn [bind].
      rewrite (idx_ok 0) by auto. cbn [bind].
      rewrite my_super_ones by auto. cbn [bind]. rewrite sub_ok by lia. cbn [bind].
      eexists _, _. split; [reflexivity|]. left. auto. }
  destruct Emid as (r & bi & -> & Hrb). cbn [bind].
  apply (fin1_ok (fun b => mkit (O p + 1) (Some _) (p / 8192) (it_sbb it) b (it_bb it))). auto.
Qed.

Lemma next1_back_with_hit it : it_back it = Some (O p) -> it_rank it <= O p ->
  it_bb it / 16 = it_sbb it -> it_bb it < lenN (rblocks rs) -> it_sbb it < lenN (rsupers rs) ->
  p / 512 <= it_bb it ->
  select_next_1_back_with search rs it =
  Ok (mkit (it_rank it) (if 0 <? O p then Some (O p - 1) else None)
        (it_sb it) (p / 8192) (it_b it) (p / 512), Some p).
Proof.
  intros Hbk Hle H16 Hbb Hsbb H512. unfold select_next_1_back_with. rewrite Hbk.
  destruct (N.ltb_spec (O p) (it_rank it)); [lia|].
  change SELECT_BLOCK_SIZE with 8192. destruct sel1_entry as [Hse1 Hse2].
  rewrite (idx_ok (0, 0)) by auto. cbn [bind]. rewrite (idx_ok 0) by auto. cbn [bind].
  change SUPER_BLOCK_SIZE with 8192 at 1. rewrite my_super_ones by auto. cbn [bind].
  pose proof (n_supers_in bv rs p Hwf G Hp) as Hns. pose proof (n_blocks_in bv rs p Hwf G Hp) as Hnb.
  assert (M1 : O (8192 * (p / 8192)) <= O (512 * (p / 512))) by (apply cnt_mono; dlia).
  assert (M2 : O (512 * (p / 512)) <= O p) by (apply cnt_mono; dlia).
  match goal with |- context [bind (if ?c then ?a else ?b) _] => set (mid := if c then a else b) end.
  assert (Emid : exists r bi, mid = Ok (p / 8192, r, bi) /\
    ((r = O p - O (8192 * (p / 8192)) /\ bi = 0) \/
     (r = O p - O (512 * (p / 512)) /\ bi = p / 512 /\ it_bb it = p / 512))).
  { unfold mid. change (SUPER_BLOCK_SIZE / BLOCK_SIZE) with 16.
    change SUPER_BLOCK_SIZE with 8192. change BLOCK_SIZE with 512.
    destruct (N.ltb_spec (O (8192 * it_sbb it)) (O p)) as [L|L].
    - assert (Es : it_sbb it = p / 8192).
      { pose proof (super1_cmp bv p Hp Hb (it_sbb it)) as E. fold d O in E.
        destruct (N.leb_spec (O (8192 * it_sbb it)) (O p)); [|lia].
        destruct (N.leb_spec (it_sbb it) (p / 8192)); [|discriminate]. dlia. }
      rewrite Es. rewrite sub_ok by lia. cbn [bind].
      rewrite sub_ok by dlia. cbn [bind].
      rewrite (idx_ok 0) by auto. cbn [bind]. rewrite my_block_ones by (auto; lia). cbn [bind].
      pose proof (block1_cmp bv p Hp Hb (it_bb it) ltac:(lia)) as E. fold d O in E.
      rewrite E. destruct (N.leb_spec (it_bb it) (p / 512)).
      + assert (E2 : it_bb it = p / 512) by lia. rewrite E2.
        rewrite sub_ok by lia. cbn [bind]. eexists _, _. split; [reflexivity|]. right.
        repeat split. lia.
      + eexists _, _. split; [reflexivity|]. left. auto.
    - fold (g1 (rsel rs) (O p / 8192)). rewrite search_super_block1_ok. cbn [bind].
      rewrite (idx_ok 0) by auto. cbn [bind].
      rewrite my_super_ones by auto. cbn [bind]. rewrite sub_ok by lia. cbn [bind].
      eexists _, _. split; [reflexivity|]. left. auto. }
  destruct Emid as (r & bi & -> & Hrb). cbn [bind].
  apply (fin1_ok (fun b => mkit (it_rank it) _ (it_sb it) (p / 8192) (it_b it) b)). auto.
Qed.
End One.

(** ** Refinement of a list consumed from both ends *)
Definition fz (zero : bool) (bv : bitvec) : N -> bool :=
  if zero then zbit (bdata bv) else bit_at (bdata bv).
Definition posz (zero : bool) (bv : bitvec) : list N := positions (negb zero) (bits bv).

Lemma posz_hit zero bv k q : getN (posz zero bv) k = Some q ->
  q < blen bv /\ fz zero bv q = true /\ cnt (fz zero bv) q = k.
Proof.
  unfold posz, fz. intros H. apply getN_positions in H. destruct H as (H1 & H2 & H3).
  rewrite lenN_bits in H1. split; auto. rewrite nthN_bits in H2 by auto.
  fold (rank_spec (negb zero) (bits bv) q) in H3. rewrite bits_rank in H3.
  rewrite N.min_l in H3 by lia. destruct zero; cbn [negb] in *; split; auto.
  unfold zbit. now rewrite H2.
Qed.
Lemma lenN_posz zero bv : lenN (posz zero bv) = cnt (fz zero bv) (blen bv).
Proof. unfold posz. rewrite lenN_positions, bits_count. now destruct zero. Qed.

Record sel_R (zero : bool) (bv : bitvec) (rs : rsvec) (it : sel_iter) (l : list N) : Prop := {
  R_win : l = sliceN (it_rank it) (sel_len it) (posz zero bv);
  R_bound : it_rank it + sel_len it <= lenN (posz zero bv);
  R_back : forall b, it_back it = Some b -> it_rank it <= b + 1;
  R_front16 : it_b it / 16 = it_sb it;
  R_front : forall k q, getN (posz zero bv) k = Some q -> it_rank it <= k -> 512 * it_b it <= q;
  R_back16 : 0 < blen bv -> it_bb it / 16 = it_sbb it /\ it_bb it < lenN (rblocks rs) /\
                            it_sbb it < lenN (rsupers rs);
  R_backc : forall b k q, it_back it = Some b -> getN (posz zero bv) k = Some q -> k <= b ->
              q / 512 <= it_bb it
}.

Section Refine.
Variables (zero : bool) (bv : bitvec) (rs : rsvec).
Hypothesis Hwf : wf bv.
Hypothesis G : rs_good bv rs.
Local Notation P := (posz zero bv).

Lemma sel_new_ok : exists it, sel_new zero rs = Ok it /\ sel_R zero bv rs it P.
Proof.
  unfold sel_new. rewrite (good_len _ _ G). pose proof (lenN_posz zero bv) as HP.
  destruct (N.eqb_spec (blen bv) 0) as [E|E].
  - eexists. split; [reflexivity|]. rewrite E, cnt_0 in HP.
    split; cbn [it_rank it_back it_sb it_sbb it_b it_bb sel_len]; try lia; try discriminate; auto.
    + cbn. now apply lenN_0_nil.
    + cbn. lia.
  - assert (Hn : 0 < lenN (bdata bv)) by (destruct Hwf as [-> _]; dlia).
    assert (Hs : 0 < lenN (rsupers rs)) by (rewrite (good_supers_len _ _ G); dlia).
    assert (Hbl : 0 < lenN (rblocks rs)) by (rewrite (good_blocks_len _ _ G); dlia).
    rewrite !sub_ok by lia. cbn [bind]. eexists. split; [reflexivity|].
    assert (Hx : (if zero then rrank0 rs else rrank1 rs) = lenN P).
    { rewrite HP. unfold fz. destruct zero; [apply (good_rank0 _ _ G)|apply (good_rank1 _ _ G)]. }
    rewrite Hx. unfold sel_len.
    split; unfold sel_len; cbn [it_rank it_back it_sb it_sbb it_b it_bb]; auto.
    + destruct (N.ltb_spec 0 (lenN P)).
      * replace (lenN P - 1 + 1 - 0) with (lenN P) by lia. now rewrite sliceN_all.
      * rewrite (lenN_0_nil P) by lia. reflexivity.
    + destruct (N.ltb_spec 0 (lenN P)); lia.
    + intros b. lia.
    + intros. lia.
    + intros _. rewrite (good_supers_len _ _ G), (good_blocks_len _ _ G) in *. dlia.
    + intros b k q _ Hq _. apply posz_hit in Hq. destruct Hq as (Hq & _).
      pose proof (n_blocks_in bv rs q Hwf G Hq). lia.
Qed.

Lemma sel_next_ok it l : sel_R zero bv rs it l ->
  exists it', sel_next zero rs it = Ok (it', getN l 0) /\ sel_R zero bv rs it' (dropN 1 l).
Proof.
  intros [R1 R2 R3 R4 R5 R6 R7]. 
  pose proof (window_nth P (it_rank it) (sel_len it) 0 R2) as W. rewrite <- R1 in W. cbn [iter_spec] in W.
  change (0 + 1) with 1 in W. destruct (N.ltb_spec 0 (sel_len it)) as [L|L]; injection W as W1 W2; rewrite W1, W2.
  - assert (Eb : exists b, it_back it = Some b /\ sel_len it = b + 1 - it_rank it).
    { unfold sel_len in *. destruct (it_back it) as [b|]; [eauto|lia]. }
    destruct Eb as (b & Eb & Es). rewrite Es in *.
    assert (Hlt : it_rank it < lenN P) by lia.
    rewrite N.add_0_r. rewrite (getN_ok 0) by auto. set (p := nthN 0 P (it_rank it)).
    assert (Hg : getN P (it_rank it) = Some p) by now apply getN_ok.
    pose proof (posz_hit _ _ _ _ Hg) as (Hp & Hf & Hc).
    assert (E : sel_next zero rs it =
      Ok (mkit (it_rank it + 1) (it_back it) (p / 8192) (it_sbb it) (p / 512) (it_bb it), Some p)).
    { unfold sel_next, fz in *. destruct zero.
      - apply (next0_with_hit bv rs p Hwf G Hp Hf _ (search_block0_ok bv rs p Hwf G Hp Hf) it b); auto; try lia. apply (R5 (it_rank it)); auto; lia.
      - apply (next1_with_hit bv rs p Hwf G Hp Hf _ (search_block1_ok bv rs p Hwf G Hp Hf) it b); auto; try lia. apply (R5 (it_rank it)); auto; lia. }
    rewrite E. eexists. split; [reflexivity|].
    split; unfold sel_len; cbn [it_rank it_back it_sb it_sbb it_b it_bb].
    + rewrite Eb. f_equal; lia.
    + rewrite Eb. lia.
    + intros b' Hb'. specialize (R3 b' Hb'). rewrite Eb in Hb'. injection Hb' as <-. lia.
    + dlia.
    + intros k q Hq Hk. apply posz_hit in Hq. destruct Hq as (_ & Hfq & Hcq).
      assert (p <= q).
      { pose proof (cnt_leb (fz zero bv) q p Hfq) as E'. rewrite Hc, Hcq in E'.
        destruct (N.leb_spec (it_rank it) k); [|lia]. symmetry in E'. now apply N.leb_le. }
      dlia.
    + auto.
    + intros b' k q Hb'. apply R7. auto.
  - assert (E : sel_next zero rs it = Ok (it, None)).
    { unfold sel_next, select_next_0, select_next_1, select_next_0_with, select_next_1_with. unfold sel_len in L.
      assert (X : match it_back it with Some b => b <? it_rank it | None => true end = true).
      { destruct (it_back it); auto. apply N.ltb_lt. lia. }
      rewrite X, !orb_true_r. now destruct zero. }
    rewrite E. eexists. split; [reflexivity|].
    split; auto. replace (sel_len it) with 0 by lia. now rewrite sliceN_0.
Qed.

Lemma sel_next_back_ok it l : sel_R zero bv rs it l ->
  exists it', sel_next_back zero rs it = Ok (it', getN (rev l) 0) /\
              sel_R zero bv rs it' (takeN (lenN l - 1) l).
Proof.
  intros [R1 R2 R3 R4 R5 R6 R7]. 
  pose proof (window_nth_back P (it_rank it) (sel_len it) 0 R2) as W. rewrite <- R1 in W. cbn [iter_spec] in W.
  change (0 + 1) with 1 in W. destruct (N.ltb_spec 0 (sel_len it)) as [L|L]; injection W as W1 W2; rewrite W1, W2.
  - assert (Eb : exists b, it_back it = Some b /\ sel_len it = b + 1 - it_rank it).
    { unfold sel_len in *. destruct (it_back it) as [b|]; [eauto|lia]. }
    destruct Eb as (b & Eb & Es). rewrite Es in *.
    replace (it_rank it + (b + 1 - it_rank it) - 1 - 0) with b by lia.
    assert (Hlt : b < lenN P) by lia.
    rewrite (getN_ok 0) by auto. set (p := nthN 0 P b).
    assert (Hg : getN P b = Some p) by now apply getN_ok.
    pose proof (posz_hit _ _ _ _ Hg) as (Hp & Hf & Hc).
    destruct (R6 ltac:(lia)) as (B1 & B2 & B3).
    assert (E : sel_next_back zero rs it =
      Ok (mkit (it_rank it) (if 0 <? b then Some (b - 1) else None)
        (it_sb it) (p / 8192) (it_b it) (p / 512), Some p)).
    { rewrite <- Hc in Eb, L |- *. unfold sel_next_back, fz in *. destruct zero.
      - apply (next0_back_with_hit bv rs p Hwf G Hp Hf _ (search_block0_ok bv rs p Hwf G Hp Hf) it); auto; try lia.
        apply (R7 _ _ _ Eb Hg). lia.
      - apply (next1_back_with_hit bv rs p Hwf G Hp Hf _ (search_block1_ok bv rs p Hwf G Hp Hf) it); auto; try lia.
        apply (R7 _ _ _ Eb Hg). lia. }
    rewrite E. eexists. split; [reflexivity|].
    pose proof (n_supers_in bv rs p Hwf G Hp). pose proof (n_blocks_in bv rs p Hwf G Hp).
    split; unfold sel_len; cbn [it_rank it_back it_sb it_sbb it_b it_bb].
    + f_equal. destruct (N.ltb_spec 0 b); lia.
    + destruct (N.ltb_spec 0 b); lia.
    + intros b' Hb'. destruct (N.ltb_spec 0 b); [|discriminate]. injection Hb' as <-. lia.
    + auto.
    + auto.
    + intros _. repeat split; auto. dlia.
    + intros b' k q Hb' Hq Hk. apply posz_hit in Hq. destruct Hq as (_ & Hfq & Hcq).
      destruct (N.ltb_spec 0 b); [|discriminate]. injection Hb' as <-.
      assert (q <= p).
      { pose proof (cnt_leb (fz zero bv) p q Hf) as E'. rewrite Hc, Hcq in E'.
        destruct (N.leb_spec k b); [|lia]. symmetry in E'. now apply N.leb_le. }
      apply N.div_le_mono; lia.
  - assert (E : sel_next_back zero rs it = Ok (it, None)).
    { unfold sel_next_back, select_next_0_back, select_next_1_back, select_next_0_back_with, select_next_1_back_with. unfold sel_len in L.
      destruct (it_back it) as [b|]; [|now destruct zero].
      destruct (N.ltb_spec b (it_rank it)); [now destruct zero|lia]. }
    rewrite E. eexists. split; [reflexivity|].
    split; auto. replace (sel_len it) with 0 by lia. now rewrite sliceN_0.
Qed.

Lemma R_lenN it l : sel_R zero bv rs it l -> lenN l = sel_len it.
Proof. intros R. rewrite (R_win _ _ _ _ _ R), lenN_sliceN; auto. apply (R_bound _ _ _ _ _ R). Qed.

Lemma advance_by_ok it l n : sel_R zero bv rs it l ->
  sel_R zero bv rs (fst (advance_by it n)) (dropN n l) /\ snd (advance_by it n) = (n <=? lenN l).
Proof.
  intros R. pose proof (R_lenN it l R) as El. destruct R as [R1 R2 R3 R4 R5 R6 R7]. 
  unfold advance_by. rewrite El.
  destruct (N.leb_spec n (sel_len it)) as [L|L]; cbn [fst snd]; split; auto;
    split; unfold sel_len, with_rank; cbn [it_rank it_back it_sb it_sbb it_b it_bb]; auto.
  - rewrite R1. unfold sliceN, sel_len. rewrite dropN_takeN, dropN_dropN. f_equal. lia.
  - unfold sel_len in *. lia.
  - intros b Hb. specialize (R3 b Hb). unfold sel_len in L. rewrite Hb in L. lia.
  - intros k q Hq Hk. apply (R5 k q); auto. lia.
  - rewrite dropN_all by lia. unfold sel_len.
    match goal with |- _ = sliceN _ ?x _ => replace x with 0 by lia end. now rewrite sliceN_0.
  - unfold sel_len in *. destruct (it_back it); lia.
  - intros b Hb. specialize (R3 b Hb). unfold sel_len in *. rewrite Hb in *. lia.
  - intros k q Hq Hk. apply (R5 k q); auto. lia.
Qed.

Lemma sel_nth_ok it l n : sel_R zero bv rs it l ->
  exists it', sel_nth zero rs it n = Ok (it', getN l n) /\ sel_R zero bv rs it' (dropN (n + 1) l).
Proof.
  intros R. destruct (advance_by_ok it l n R) as [R' Hok]. unfold sel_nth.
  destruct (advance_by it n) as [it1 ok]. cbn [fst snd] in *. subst ok.
  destruct (N.leb_spec n (lenN l)) as [L|L].
  - destruct (sel_next_ok it1 _ R') as (it2 & E & R2). exists it2. rewrite E. split.
    + rewrite getN_dropN. now rewrite N.add_0_r.
    + now rewrite dropN_dropN in R2.
  - exists it1. rewrite getN_none by lia. split; auto. rewrite dropN_all in * by lia. auto.
Qed.

(** [nth_back] works when the element exists, and also past the front as soon as the front has
    moved; see [nth_back_panics] for the remaining case. *)
Lemma sel_nth_back_ok it l n : sel_R zero bv rs it l -> n < lenN l \/ 0 < it_rank it ->
  exists it', sel_nth_back zero rs it n = Ok (it', getN (rev l) n) /\
              sel_R zero bv rs it' (takeN (lenN l - (n + 1)) l).
Proof.
  intros R Hn. pose proof (R_lenN it l R) as El. pose proof R as [R1 R2 R3 R4 R5 R6 R7]. 
  unfold sel_nth_back, advance_back_by. rewrite <- El.
  assert (Hw : forall m, m <= lenN l -> m < lenN l \/ 0 < it_rank it -> exists b',
    back_minus (it_back it) m = Ok b' /\ sel_R zero bv rs (with_back it b') (takeN (lenN l - m) l)).
  { intros m Hm Hc. unfold back_minus. unfold sel_len in El.
    destruct (it_back it) as [b|] eqn:Eb.
    - specialize (R3 b eq_refl). rewrite sub_ok by lia. cbn [bind]. eexists. split; [reflexivity|].
      split; unfold sel_len, with_back; cbn [it_rank it_back it_sb it_sbb it_b it_bb]; auto.
      + rewrite R1 at 2. unfold sliceN, sel_len. rewrite takeN_min, Eb. f_equal. lia.
      + unfold sel_len in R2. rewrite Eb in R2. lia.
      + intros b' Hb'. injection Hb' as <-. lia.
      + intros b' k q Hb' Hq Hk. injection Hb' as <-. apply (R7 b k q); auto. lia.
    - exists None. split; auto.
      split; unfold sel_len, with_back; cbn [it_rank it_back it_sb it_sbb it_b it_bb]; auto; try discriminate.
      + replace (lenN l - m) with 0 by lia. now replace (0 - it_rank it) with 0 by lia.
      + unfold sel_len in R2. rewrite Eb in R2. lia. }
  destruct (N.leb_spec n (lenN l)) as [L|L].
  - destruct (Hw n L Hn) as (b' & E & R'). rewrite E. cbn [bind].
    destruct (sel_next_back_ok _ _ R') as (it2 & E2 & R''). rewrite E2.
    assert (Hlen : lenN (takeN (lenN l - n) l) = lenN l - n) by (rewrite lenN_takeN; lia).
    rewrite Hlen in R''. exists it2. split.
    + f_equal. f_equal. rewrite !getN_rev, Hlen.
      destruct (N.ltb_spec 0 (lenN l - n)), (N.ltb_spec n (lenN l)); try lia; auto.
      rewrite getN_takeN. destruct (N.ltb_spec (lenN l - n - 1 - 0) (lenN l - n)); [|lia]. f_equal. lia.
    + rewrite takeN_min in R''. now replace (lenN l - (n + 1)) with (N.min (lenN l - n - 1) (lenN l - n)) by lia.
  - destruct (Hw (lenN l)) as (b' & E & R'); [lia|lia|]. rewrite E. cbn [bind].
    eexists. split; [f_equal; f_equal; symmetry; apply getN_none; rewrite lenN_rev; lia|].
    rewrite N.sub_diag in R'. replace (lenN l - (n + 1)) with 0 by lia. auto.
Qed.

Lemma nth_back_panics it l n : sel_R zero bv rs it l -> it_rank it = 0 -> 0 < lenN l -> lenN l <= n ->
  sel_nth_back zero rs it n = Panic.
Proof.
  intros R Hr Hl Hn. pose proof (R_lenN it l R) as El.
  unfold sel_nth_back, advance_back_by. rewrite <- El. unfold sel_len in El.
  destruct (it_back it) as [b|]; [|lia].
  destruct (N.leb_spec n (lenN l)); unfold back_minus, sub.
  - destruct (N.leb_spec n b); [lia|]. reflexivity.
  - destruct (N.leb_spec (lenN l) b); [lia|]. reflexivity.
Qed.

Lemma sel_last_ok it l : sel_R zero bv rs it l -> sel_last zero rs it = Ok (getN (rev l) 0).
Proof.
  intros R. pose proof (R_lenN it l R) as El. unfold sel_last. rewrite <- El. rewrite getN_rev.
  destruct (N.eqb_spec (lenN l) 0) as [E|E].
  - rewrite E. reflexivity.
  - destruct (advance_by_ok it l (lenN l - 1) R) as [R' Hok].
    destruct (advance_by it (lenN l - 1)) as [it1 ok]. cbn [fst snd] in *. subst ok.
    destruct (N.leb_spec (lenN l - 1) (lenN l)); [|lia].
    destruct (sel_next_ok it1 _ R') as (it2 & E2 & _). rewrite E2. cbn [bind]. f_equal.
    rewrite getN_dropN. destruct (N.ltb_spec 0 (lenN l)); [f_equal; lia|lia].
Qed.

Lemma sel_step_ok it l op : sel_R zero bv rs it l ->
  match op with INthBack n => n < lenN l | _ => True end ->
  exists it', sel_step zero rs it op = Ok (it', snd (iter_spec l op)) /\
              sel_R zero bv rs it' (fst (iter_spec l op)).
Proof.
  intros R Hop. destruct op; cbn [sel_step iter_spec fst snd].
  - destruct (sel_next_ok it l R) as (it' & -> & R'). exists it'. auto.
  - destruct (sel_next_back_ok it l R) as (it' & -> & R'). exists it'. auto.
  - destruct (sel_nth_ok it l n R) as (it' & -> & R'). exists it'. auto.
  - destruct (sel_nth_back_ok it l n R) as (it' & -> & R'); auto. exists it'. auto.
  - exists it. rewrite (R_lenN it l R). auto.
Qed.
End Refine.
