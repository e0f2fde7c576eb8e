(** * Property C108: what zero-width appends do.

    [append_bits(w, 0)] on a vector whose length is a multiple of 64 stores the limb [w] without
    changing the length (C11). These theorems say what later calls make of such surplus limbs. *)
From Verif Require Import Base Spec BaseFacts WordFacts BitVecModel BitVecProofs BitVecProofs2 PropsBitVec RsVecModel RsVecProofs RsVecSelect PropsRsVec.

(** The bits of a list of limbs. *)
Definition flat (ws : list N) : list bool := concat (map (fun w => lowbits w 64) ws).
(** A vector after appending zero bits of each word of [ws]. *)
Definition append_empty (bv : bitvec) (ws : list N) : res bitvec := forM ws bv (fun b w => bv_append_bits b w 0).

Lemma flat_app a b : flat (a ++ b) = flat a ++ flat b.
Proof. unfold flat. now rewrite map_app, concat_app. Qed.
Lemma lenN_flat ws : lenN (flat ws) = 64 * lenN ws.
Proof. apply lenN_concat_lowbits. Qed.
Lemma flat_one w : flat [w] = lowbits w 64.
Proof. unfold flat. cbn [map concat]. apply app_nil_r. Qed.

Lemma take_bits d n m : n <= m -> bits (mkbv d n) = takeN n (bits (mkbv d m)).
Proof. intros H. unfold bits. cbn [bdata blen]. now rewrite takeN_bools. Qed.
(** The vector with the surplus limbs counted in. *)
Lemma full_ok ws : forall bv, wf bv -> words ws -> blen bv mod 64 = 0 ->
  wf (mkbv (bdata bv ++ ws) (blen bv + 64 * lenN ws)) /\
  bits (mkbv (bdata bv ++ ws) (blen bv + 64 * lenN ws)) = bits bv ++ flat ws.
Proof.
  induction ws as [|w ws IH]; intros bv H Hw Ha.
  - rewrite !app_nil_r. change (64 * lenN (@nil N)) with 0. rewrite N.add_0_r. destruct bv; auto.
  - inversion Hw as [|? ? Hw1 Hw2]; subst. destruct (append_aligned bv w 64 H Hw1 Ha ltac:(lia) ltac:(lia)) as [H1 H2].
    destruct (IH (mkbv (bdata bv ++ [w]) (blen bv + 64)) H1 Hw2) as [H3 H4]; [cbn [blen]; dlia|]. cbn [bdata blen] in *.
    rewrite <- app_assoc in *. cbn [app] in *. rewrite lenN_cons. replace (blen bv + 64 * (lenN ws + 1)) with (blen bv + 64 + 64 * lenN ws) by lia.
    split; auto. rewrite H4, H2. unfold flat at 2. cbn [map concat]. now rewrite app_assoc.
Qed.
Lemma surplus_bits bv ws n : wf bv -> words ws -> blen bv mod 64 = 0 -> n <= 64 * lenN ws ->
  bits (mkbv (bdata bv ++ ws) (blen bv + n)) = bits bv ++ takeN n (flat ws).
Proof.
  intros H Hw Ha Hn. rewrite (take_bits _ _ (blen bv + 64 * lenN ws)) by lia. rewrite (proj2 (full_ok ws bv H Hw Ha)).
  rewrite takeN_app_ge by (rewrite lenN_bits; lia). rewrite lenN_bits. do 2 f_equal. lia.
Qed.
Lemma append_empty_eq bv ws : blen bv mod 64 = 0 -> append_empty bv ws = Ok (mkbv (bdata bv ++ ws) (blen bv)).
Proof.
  intros Ha. unfold append_empty. revert bv Ha. induction ws as [|w ws IH]; intros bv Ha; cbn [forM]; [rewrite app_nil_r; now destruct bv|].
  unfold bv_append_bits at 1. cbn [N.leb assert bind]. change (0 <=? 64) with true. cbn [assert bind]. rewrite Ha. cbn [N.eqb bind].
  rewrite N.add_0_r, IH by auto. cbn [bdata blen]. now rewrite <- app_assoc.
Qed.

(** ** An [RsVec] that differs in the length and the number of ones only *)
Definition with_len (rs : rsvec) (n r1 : N) : rsvec := mkrs (rdata rs) n (rblocks rs) (rsupers rs) (rsel rs) (rrank0 rs) r1.
Lemma super0_bin_with_len f : forall rs n r1 k a b, search_super0_bin f (with_len rs n r1) k a b = search_super0_bin f rs k a b.
Proof. induction f as [|f IH]; intros; cbn [search_super0_bin]; auto. destruct (sub b a); cbn [bind]; auto. cbn [with_len rsupers].
  destruct (8 <? a0); auto. destruct (idx _ _); cbn [bind]; auto. now rewrite !IH. Qed.
Lemma super0_lin_with_len f : forall rs n r1 k a, search_super0_lin f (with_len rs n r1) k a = search_super0_lin f rs k a.
Proof. induction f as [|f IH]; intros; cbn [search_super0_lin]; auto. cbn [with_len rsupers].
  destruct (if a + 1 <? lenN (rsupers rs) then _ else _); cbn [bind]; auto. destruct a0; auto. Qed.
Lemma super1_bin_with_len f : forall rs n r1 k a b, search_super1_bin f (with_len rs n r1) k a b = search_super1_bin f rs k a b.
Proof. induction f as [|f IH]; intros; cbn [search_super1_bin]; auto. destruct (sub b a); cbn [bind]; auto. cbn [with_len rsupers].
  destruct (8 <? a0); auto. destruct (idx _ _); cbn [bind]; auto. destruct (sub _ _); cbn [bind]; auto. now rewrite !IH. Qed.
Lemma super1_lin_with_len f : forall rs n r1 k a, search_super1_lin f (with_len rs n r1) k a = search_super1_lin f rs k a.
Proof. induction f as [|f IH]; intros; cbn [search_super1_lin]; auto. cbn [with_len rsupers].
  destruct (if a + 1 <? lenN (rsupers rs) then _ else _); cbn [bind]; auto. destruct a0; auto. Qed.
Lemma select0_with_len rs n r1 k : rs_select0 (with_len rs n r1) k = if rrank0 rs <=? k then Ok n else rs_select0 rs k.
Proof.
  unfold rs_select0, rs_select0_with. change (rrank0 (with_len rs n r1)) with (rrank0 rs). destruct (rrank0 rs <=? k); [reflexivity|].
  unfold search_super_block0. cbn [with_len rsel rsupers rblocks].
  destruct (idx (rsel rs) (k / SELECT_BLOCK_SIZE)) as [e| |]; cbn [bind]; auto.
  destruct (if fst e + 1 <? lenN (rsupers rs) then _ else _) as [g| |]; cbn [bind]; auto.
  destruct g; [|reflexivity].
  destruct (idx (rsel rs) (k / SELECT_BLOCK_SIZE + 1)) as [e'| |]; cbn [bind]; auto. rewrite super0_bin_with_len.
  destruct (search_super0_bin _ rs k (fst e) (fst e')); cbn [bind]; auto. rewrite super0_lin_with_len. reflexivity.
Qed.
Lemma select1_with_len rs n r1 k : rs_select1 (with_len rs n r1) k = if r1 <=? k then Ok n else rs_select1 (with_len rs (rlen rs) (k + 1)) k.
Proof.
  unfold rs_select1, rs_select1_with. change (rrank1 (with_len rs n r1)) with r1. destruct (r1 <=? k); [reflexivity|].
  change (rrank1 (with_len rs (rlen rs) (k + 1))) with (k + 1). destruct (N.leb_spec (k + 1) k); [lia|].
  unfold search_super_block1. cbn [with_len rsel rsupers rblocks].
  destruct (idx (rsel rs) (k / SELECT_BLOCK_SIZE)) as [e| |]; cbn [bind]; auto.
  destruct (if snd e + 1 <? lenN (rsupers rs) then _ else _) as [g| |]; cbn [bind]; auto.
  destruct g; [|reflexivity].
  destruct (idx (rsel rs) (k / SELECT_BLOCK_SIZE + 1)) as [e'| |]; cbn [bind]; auto. rewrite !super1_bin_with_len.
  destruct (search_super1_bin _ rs k (snd e) (snd e')); cbn [bind]; auto. rewrite !super1_lin_with_len. reflexivity.
Qed.
Lemma select_spec_app b l m k : k < count b l -> select_spec b (l ++ m) k = select_spec b l k.
Proof.
  intros Hk. unfold select_spec, positions. rewrite positions_from_app. unfold getN. rewrite lenN_app, !lenN_positions_from.
  destruct (N.ltb_spec k (count b l + count b m)); [|lia]. destruct (N.ltb_spec k (count b l)); [|lia].
  pose proof (lenN_positions_from b l 0) as E. unfold lenN in E. rewrite nth_error_app1 by lia.
  destruct (nth_error (positions_from b 0 l) (N.to_nat k)) eqn:En; auto. apply nth_error_None in En. lia.
Qed.

Section Surplus.
Variable bv : bitvec.
Variable ws : list N.
Hypothesis H : wf bv.
Hypothesis Ha : lenN (bits bv) mod 64 = 0.
Hypothesis Hw : Forall (fun w => w < 2 ^ 64) ws.
Variable bv1 : bitvec.
Hypothesis E1 : append_empty bv ws = Ok bv1.

Lemma bv1_eq : blen bv mod 64 = 0 /\ words ws /\ bv1 = mkbv (bdata bv ++ ws) (blen bv).
Proof using Ha Hw E1.
  rewrite lenN_bits in Ha. split; auto. split; [exact Hw|]. rewrite append_empty_eq in E1 by auto. congruence.
Qed.

(** Nothing can be seen as long as nothing is appended. *)
Theorem C108_reads :
  bv_length bv1 = bv_length bv /\ bits bv1 = bits bv /\ (forall p, bv_get bv1 p = bv_get bv p) /\
  (forall p n, p < 2 ^ 64 -> bv_get_bits bv1 p n = bv_get_bits bv p n) /\ bv_count_ones bv1 = bv_count_ones bv.
Proof using H Ha Hw E1.
  destruct bv1_eq as (A & W & ->). split; [reflexivity|].
  assert (B : forall i, i < blen bv -> bit_at (bdata bv ++ ws) i = bit_at (bdata bv) i).
  { intros i Hi. rewrite bit_at_app, (proj1 H). destruct (N.ltb_spec (i / 64) ((blen bv + 63) / 64)); auto. dlia. }
  assert (W' : words (bdata bv ++ ws)) by (apply words_app; auto; apply H).
  split; [|split; [|split]].
  - unfold bits. cbn [bdata blen]. now apply bools_ext.
  - intros p. unfold bv_get, bv_get_unchecked. cbn [bdata blen]. destruct (N.leb_spec (blen bv) p); auto.
    rewrite !(idx_ok 0) by (rewrite ?lenN_app, (proj1 H); dlia). cbn [bind]. rewrite nthN_app, (proj1 H).
    destruct (N.ltb_spec (p / 64) ((blen bv + 63) / 64)); auto. dlia.
  - intros p n Hp. unfold bv_get_bits. cbn [blen]. destruct ((64 <? n) || (n =? 0)) eqn:En; auto.
    apply orb_false_iff in En. destruct En as [En1 En2]. apply N.ltb_ge in En1. apply N.eqb_neq in En2.
    unfold add64. destruct (p + n <? U64); auto. cbn [bind]. destruct (N.ltb_spec (blen bv) (p + n)); auto.
    unfold bv_get_bits_unchecked. cbn [bdata]. rewrite !limbs_get_bits_ok; try lia; auto; try (rewrite ?lenN_app, (proj1 H); dlia); [|apply H].
    cbn [bind]. do 3 f_equal. apply bools_ext. intros i Hi. apply B. lia.
  - unfold bv_count_ones. cbn [bdata blen]. rewrite A. cbn [N.eqb]. rewrite !slice_chk_ok by (rewrite ?lenN_app, ?(proj1 H); dlia).
    cbn [bind]. unfold sliceN. rewrite !dropN_0, N.sub_0_r, takeN_app_le; auto. rewrite (proj1 H). dlia.
Qed.

(** Whole words come out late: first those of [ws]. *)
Theorem C108_append_word us : Forall (fun w => w < 2 ^ 64) us ->
  exists bv2, forM us bv1 bv_append_word = Ok bv2 /\ bits bv2 = bits bv ++ takeN (64 * lenN us) (flat (ws ++ us)).
Proof using H Ha Hw E1.
  destruct bv1_eq as (A & W & ->). intros Hu. exists (mkbv (bdata bv ++ ws ++ us) (blen bv + 64 * lenN us)). split.
  - rewrite app_assoc. generalize (bdata bv ++ ws). clear - A. revert A. generalize (blen bv). induction us as [|u us IH]; intros n A d; cbn [forM].
    + rewrite app_nil_r. change (64 * lenN (@nil N)) with 0. now rewrite N.add_0_r.
    + unfold bv_append_word at 1. cbn [blen bdata]. rewrite A. cbn [N.eqb bind]. rewrite IH by dlia. rewrite <- app_assoc, lenN_cons. cbn [app].
      do 2 f_equal. lia.
  - apply surplus_bits; auto; [now apply words_app|rewrite lenN_app; lia].
Qed.
Theorem C108_append_bits u n : u < 2 ^ 64 -> 1 <= n <= 64 ->
  exists bv2, bv_append_bits bv1 u n = Ok bv2 /\ bits bv2 = bits bv ++ takeN n (flat (ws ++ [u])).
Proof using H Ha Hw E1.
  destruct bv1_eq as (A & W & ->). intros Hu Hn. unfold bv_append_bits. rewrite assert_true by lia. cbn [bind blen bdata]. rewrite A. cbn [N.eqb].
  eexists. split; [reflexivity|]. rewrite <- app_assoc. apply surplus_bits; auto; [|rewrite lenN_app; cbn; lia].
  apply words_app; auto. now apply words_one.
Qed.
(** Single bits come out right, but [count_ones] then misses them. *)
Theorem C108_append b : ws <> [] ->
  exists bv2, bv_append bv1 b = Ok bv2 /\ bits bv2 = bits bv ++ [b] /\ bv_count_ones bv2 = Ok (count true (bits bv)).
Proof using H Ha Hw E1.
  destruct bv1_eq as (A & W & ->). intros Hne. destruct ws as [|w0 ws'] eqn:Ew; [congruence|]. inversion W as [|? ? W0 W1]; subst.
  unfold bv_append. cbn [blen bdata]. rewrite A. cbn [N.eqb]. change (shl64 1 0) with 1.
  set (d := (bdata bv ++ w0 :: ws') ++ [0]). assert (L : lenN (bdata bv) = blen bv / 64) by (rewrite (proj1 H); dlia).
  assert (Ld : blen bv / 64 < lenN d) by (unfold d; rewrite !lenN_app, lenN_cons, L; lia).
  assert (Nd : nthN 0 d (blen bv / 64) = w0).
  { unfold d. rewrite <- app_assoc, nthN_app, L, N.ltb_irrefl, N.sub_diag. reflexivity. }
  set (w' := if b then N.lor w0 1 else N.land w0 (not64 1)).
  exists (mkbv (set_nth d (N.to_nat (blen bv / 64)) w') (blen bv + 1)). split; [|split].
  - unfold w'. destruct b; rewrite upd_limb_ok by auto; rewrite Nd; reflexivity.
  - change [b] with (bools (fun _ => b) 1). apply bits_app_intro; cbn [bdata blen]; auto.
    + intros i Hi. rewrite bit_at_set by auto. destruct (N.eqb_spec (i / 64) (blen bv / 64)); [dlia|].
      unfold d. rewrite <- app_assoc, bit_at_app, L. destruct (N.ltb_spec (i / 64) (blen bv / 64)); auto. dlia.
    + intros i Hi. replace i with 0 by lia. rewrite N.add_0_r, bit_at_set by auto. rewrite N.eqb_refl, A. unfold w'.
      destruct b; rewrite ?N.lor_spec, ?N.land_spec, ?not64_spec; cbn; now rewrite ?orb_true_r, ?andb_false_r.
  - assert (Hf : takeN (blen bv / 64) (set_nth d (N.to_nat (blen bv / 64)) w') = bdata bv).
    { apply list_ext with (d := 0); [rewrite lenN_takeN, lenN_set_nth; lia|]. intros i Hi. rewrite lenN_takeN, lenN_set_nth in Hi.
      rewrite nthN_takeN, nthN_set_nth by lia. destruct (N.eqb_spec i (blen bv / 64)); [lia|]. unfold d.
      rewrite <- app_assoc, nthN_app. destruct (N.ltb_spec i (lenN (bdata bv))); auto. lia. }
    unfold bv_count_ones. cbn [bdata blen]. replace ((blen bv + 1) / 64) with (blen bv / 64) by dlia. replace ((blen bv + 1) mod 64) with 1 by dlia. cbn [N.eqb].
    rewrite slice_chk_ok by (rewrite ?lenN_set_nth; lia). cbn [bind]. unfold sliceN. rewrite dropN_0, N.sub_0_r, Hf.
    rewrite (last_chk_ok 0) by (rewrite lenN_set_nth; lia). cbn [bind]. rewrite lenN_set_nth.
    replace (nthN 0 (set_nth d (N.to_nat (blen bv / 64)) w') (lenN d - 1)) with 0.
    2: { rewrite nthN_set_nth by lia. assert (Ed : lenN d - 1 = lenN (bdata bv ++ w0 :: ws')) by (unfold d; rewrite lenN_app; cbn; lia).
         rewrite Ed. destruct (N.eqb_spec (lenN (bdata bv ++ w0 :: ws')) (blen bv / 64)) as [Ex|_]; [rewrite lenN_app, lenN_cons in Ex; lia|].
         unfold d. now rewrite nthN_app, N.ltb_irrefl, N.sub_diag. }
    rewrite N.land_0_l. change (popcount 0) with 0. rewrite N.add_0_r.
    pose proof (sum_popcount (bdata bv) (blen bv / 64)) as S. rewrite takeN_all in S by lia. rewrite S by (auto; try lia; apply H).
    rewrite count_bits_true. do 2 f_equal. dlia.
Qed.
(** Appending a vector panics if it has fewer limbs than there are surplus ones. *)
Theorem C108_extend o : wf o ->
  if (lenN (bits o) + 63) / 64 <? lenN ws then bv_extend bv1 o = Panic
  else exists bv2, bv_extend bv1 o = Ok bv2 /\ bits bv2 = bits bv ++ takeN (lenN (bits o)) (flat ws ++ bits o).
Proof using H Ha Hw E1.
  destruct bv1_eq as (A & W & ->). intros Ho. rewrite lenN_bits. unfold bv_extend. cbn [blen bdata]. rewrite lenN_app, (proj1 H).
  destruct (N.ltb_spec ((blen o + 63) / 64) (lenN ws)) as [L|L].
  { unfold sub. destruct (N.leb_spec ((blen bv + 63) / 64 + lenN ws) ((blen bv + blen o + 63) / 64)); [dlia|reflexivity]. }
  rewrite sub_ok by dlia. cbn [bind]. pose proof (proj1 Ho) as Hl.
  destruct (forM_range_inv (fun i s => s = mkbv (bdata bv ++ ws ++ takeN i (bdata o)) (blen bv + 64 * i))
              0 (blen o / 64) (mkbv (bdata bv ++ ws) (blen bv)) (fun bv i => let* w := idx (bdata o) i in bv_append_bits bv w 64))
    as (s & E & ->).
  - lia.
  - rewrite takeN_0, app_nil_r. do 2 f_equal. lia.
  - intros i s _ Hi ->. rewrite (idx_ok 0) by dlia. cbn [bind]. unfold bv_append_bits. cbn [N.leb assert bind blen bdata].
    change (64 <=? 64) with true. cbn [assert bind]. replace ((blen bv + 64 * i) mod 64) with 0 by dlia. cbn [N.eqb].
    eexists. split; [reflexivity|]. rewrite (takeN_succ 0) by dlia. rewrite <- !app_assoc. f_equal. lia.
  - rewrite E. cbn [bind].
    assert (Fin : forall s, s = mkbv (bdata bv ++ ws ++ bdata o) (blen bv + blen o) -> bits s = bits bv ++ takeN (blen o) (flat ws ++ bits o)).
    { intros s ->. rewrite surplus_bits; auto; [|apply words_app; auto; apply Ho|rewrite lenN_app, Hl; dlia]. f_equal. rewrite flat_app.
      assert (Eo : takeN (blen o) (flat (bdata o)) = bits o).
      { pose proof (surplus_bits bv_new (bdata o) (blen o) bv_new_wf (proj2 Ho) eq_refl ltac:(dlia)) as Q. cbn [bv_new bdata blen app] in Q.
        rewrite N.add_0_l, bv_new_bits in Q. cbn [app] in Q. rewrite <- Q. now destruct o. }
      rewrite <- Eo. apply list_ext with (d := false); rewrite !lenN_takeN, !lenN_app, ?lenN_takeN, !lenN_flat; [lia|].
      intros i Hi. rewrite !nthN_takeN by lia. rewrite !nthN_app. destruct (N.ltb_spec i (lenN (flat ws))); auto. rewrite nthN_takeN; auto. lia. }
    destruct (N.ltb_spec 0 (blen o mod 64)) as [P|P].
    + rewrite (idx_ok 0) by dlia. cbn [bind]. unfold bv_append_bits. rewrite assert_true by dlia. cbn [bind blen bdata].
      replace ((blen bv + 64 * (blen o / 64)) mod 64) with 0 by dlia. cbn [N.eqb]. eexists. split; [reflexivity|]. apply Fin.
      rewrite <- !app_assoc. rewrite <- (takeN_succ 0) by dlia. rewrite takeN_all by dlia. f_equal. dlia.
    + eexists. split; [reflexivity|]. apply Fin. rewrite takeN_all by dlia. f_equal. dlia.
Qed.
(** [drop_last] removes the surplus limbs, even [drop_last(0)]. *)
Theorem C108_drop_last n : bv_drop_last bv1 n = bv_drop_last bv n.
Proof using H Ha Hw E1.
  destruct bv1_eq as (A & W & ->). unfold bv_drop_last. cbn [blen bdata]. destruct (N.ltb_spec (blen bv) n); auto.
  rewrite sub_ok by auto. cbn [bind]. do 2 f_equal. rewrite lenN_app. pose proof (proj1 H) as Hl.
  set (c := (blen bv - n + 63) / 64). assert (Hc : c <= lenN (bdata bv)) by (unfold c; dlia).
  destruct (N.ltb_spec c (lenN (bdata bv) + lenN ws)).
  - change (takeN c (bdata bv ++ ws) = if c <? lenN (bdata bv) then takeN c (bdata bv) else bdata bv).
    rewrite takeN_app_le by auto. destruct (N.ltb_spec c (lenN (bdata bv))); auto. apply takeN_all. lia.
  - destruct (N.ltb_spec c (lenN (bdata bv))); [lia|]. assert (lenN ws = 0) by lia. destruct ws; [now rewrite app_nil_r|rewrite lenN_cons in *; lia].
Qed.

(** [RsVec::from_bit_vec] counts the zeros of the surplus limbs. *)
Theorem C108_rsvec :
  let z := count false (flat ws) in
  if count true (bits bv) <? z then rs_from_bit_vec bv1 = Panic
  else exists rs, rs_from_bit_vec bv1 = Ok rs /\
    (forall p, rs_rank0 rs p = Ok (if p <? lenN (bits bv) then rank_spec false (bits bv) p else count false (bits bv) + z)) /\
    (forall p, rs_rank1 rs p = Ok (if p <? lenN (bits bv) then rank_spec true (bits bv) p else count true (bits bv) - z)) /\
    (forall k, rs_select0 rs k = Ok (if k <? count false (bits bv) + z then select_spec false (bits bv ++ flat ws) k else lenN (bits bv))) /\
    (forall k, rs_select1 rs k = Ok (if k <? count true (bits bv) - z then select_spec true (bits bv) k else lenN (bits bv))).
Proof using H Ha Hw E1.
  destruct bv1_eq as (A & W & ->). intros z. destruct (full_ok ws bv H W A) as [HF BF].
  set (F := mkbv (bdata bv ++ ws) (blen bv + 64 * lenN ws)) in *.
  destruct (rs_from_bit_vec_ok F HF) as (R & ER & GR).
  assert (T : rrank0 R = count false (bits bv) + z).
  { pose proof (proj1 (proj2 (C12_rank F R (blen F) HF ER))) as Q. unfold rs_rank0, rs_rank in Q. rewrite (good_len _ _ GR) in Q.
    rewrite N.leb_refl in Q. injection Q as Q. rewrite Q, rank_spec_all by (rewrite lenN_bits; apply N.le_refl). rewrite BF. apply count_app. }
  assert (E : rs_from_bit_vec (mkbv (bdata bv ++ ws) (blen bv)) =
    let* ones := sub (blen bv) (rrank0 R) in Ok (with_len R (blen bv) ones)).
  { unfold rs_from_bit_vec in *.
    assert (Es : rs_step (mkbv (bdata bv ++ ws) (blen bv)) = rs_step F).
    { unfold rs_step, F. cbn [bdata blen]. rewrite A. replace ((blen bv + 64 * lenN ws) mod 64) with 0 by dlia. reflexivity. }
    rewrite Es. cbn [bdata blen] in *. change (bdata F) with (bdata bv ++ ws) in ER.
    destruct (forM _ _ _) as [st| |]; cbn [bind] in *; try discriminate.
    destruct (rs_dummies _ _ _) as [sel| |]; cbn [bind] in *; try discriminate.
    destruct (sub (blen F) _); cbn [bind] in *; try discriminate. injection ER as <-. reflexivity. }
  rewrite E, T. pose proof (count_true_false (bits bv)) as CT. rewrite lenN_bits in CT.
  destruct (N.ltb_spec (count true (bits bv)) z) as [L|L].
  { unfold sub. destruct (N.leb_spec (count false (bits bv) + z) (blen bv)); [lia|reflexivity]. }
  rewrite sub_ok by lia. cbn [bind]. set (r1 := blen bv - (count false (bits bv) + z)). assert (Er : r1 = count true (bits bv) - z) by (unfold r1; lia).
  rewrite lenN_bits.
  assert (RK : forall zero p, rs_rank (with_len R (blen bv) r1) zero p =
    if p <? blen bv then rs_rank R zero p else Ok (if zero then rrank0 R else r1)).
  { intros zero p. unfold rs_rank. cbn [with_len rlen rrank0 rrank1 rsupers rblocks rdata]. rewrite (good_len _ _ GR).
    change (blen F) with (blen bv + 64 * lenN ws). destruct (N.leb_spec (blen bv) p), (N.ltb_spec p (blen bv)); try lia; [reflexivity|].
    destruct (N.leb_spec (blen bv + 64 * lenN ws) p); [lia|]. reflexivity. }
  assert (RS : forall b p, p < blen bv -> rank_spec b (bits F) p = rank_spec b (bits bv) p).
  { intros b p Hp. unfold rank_spec. rewrite BF, takeN_app_le; auto. rewrite lenN_bits. lia. }
  exists (with_len R (blen bv) r1). split; [reflexivity|]. split; [|split; [|split]].
  - intros p. unfold rs_rank0. rewrite RK. destruct (N.ltb_spec p (blen bv)); [|now rewrite T].
    rewrite <- RS by auto. apply (C12_rank F R p HF ER).
  - intros p. unfold rs_rank1. rewrite RK. destruct (N.ltb_spec p (blen bv)); [|now rewrite Er].
    rewrite <- RS by auto. apply (C12_rank F R p HF ER).
  - intros k. rewrite select0_with_len, T. destruct (N.leb_spec (count false (bits bv) + z) k), (N.ltb_spec k (count false (bits bv) + z)); try lia; auto.
    rewrite <- BF. apply (C13_select F R k HF ER).
  - intros k. rewrite select1_with_len, Er. destruct (N.leb_spec (count true (bits bv) - z) k), (N.ltb_spec k (count true (bits bv) - z)); try lia; auto.
    pose proof (select1_with_len R (rlen R) (rrank1 R) k) as Q. replace (with_len R (rlen R) (rrank1 R)) with R in Q by (now destruct R).
    assert (K : rrank1 R <=? k = false).
    { apply N.leb_gt. pose proof (proj1 (C12_rank F R (blen F) HF ER)) as Q'. unfold rs_rank1, rs_rank in Q'. rewrite (good_len _ _ GR) in Q'.
      rewrite N.leb_refl in Q'. injection Q' as Q'. rewrite Q', rank_spec_all by (rewrite lenN_bits; apply N.le_refl). rewrite BF, count_app. lia. }
    rewrite K in Q. rewrite <- Q, <- (select_spec_app true (bits bv) (flat ws)) by lia. rewrite <- BF. apply (C13_select F R k HF ER).
Qed.
End Surplus.

(** Packing elements of zero bits appends zero bits for each. *)
Theorem C108_pack maxb ws : bv_pack maxb ws 0 = append_empty bv_new ws.
Proof. unfold bv_pack, append_empty, bv_pack_word. destruct (N.leb_spec 0 maxb); [reflexivity|lia]. Qed.
(** 64 ones and one surplus limb of zeros: no ones are left for rank and select. *)
Definition ex_surplus : bitvec := mkbv [2 ^ 64 - 1] 64.
Example C108_ex :
  wf ex_surplus /\ lenN (bits ex_surplus) mod 64 = 0 /\ append_empty ex_surplus [0] = Ok (mkbv [2 ^ 64 - 1; 0] 64) /\
  (let* rs := rs_from_bit_vec (mkbv [2 ^ 64 - 1; 0] 64) in let* a := rs_rank1 rs 64 in let* b := rs_rank0 rs 64 in let* c := rs_select0 rs 3 in
   let* d := rs_select1 rs 0 in Ok [a; b; c; d]) = Ok [0; 64; 67; 64] /\
  bv_append_bits (mkbv [2 ^ 64 - 1; 0] 64) 5 3 = Ok (mkbv [2 ^ 64 - 1; 0; 5] 67) /\ bv_get (mkbv [2 ^ 64 - 1; 0; 5] 67) 64 = Ok (Some 0) /\
  bv_extend (mkbv [2 ^ 64 - 1; 0] 64) bv_new = Panic.
Proof. split; [split; [reflexivity|repeat constructor]|]. vm_compute. auto 10. Qed.
