(** * Properties C113 and C114: how many steps rank, [FastRmq] and the selects of a wavelet matrix take. *)
From Verif Require Import Base Spec BaseFacts BitVecModel BitVecProofs RsVecModel RsVecProofs PropsRsVec RmqModel PropsRmq PropsRmqTies
  WaveletModel WaveletProofs WaveletBuild WaveletCount WaveletQuery PropsWavelet CostModel PropsCost CostQueryModel.

(** ** C113 *)
Lemma slice_cut_same k {A} (l : list A) a b : b <= a + k -> slice_cut k l a b = slice_chk l a b.
Proof.
  intros H. unfold slice_cut, slice_chk. destruct ((a <=? b) && (b <=? lenN l)); [|reflexivity]. cbn [bind].
  destruct (N.leb_spec (lenN (firstn (N.to_nat (b - a)) (skipn (N.to_nat a) l))) k) as [L|L]; [reflexivity|]. exfalso.
  unfold lenN in L. pose proof (firstn_le_length (N.to_nat (b - a)) (skipn (N.to_nat a) l)). lia.
Qed.

(** Seven words before the one of the position. *)
Theorem C113_rank bv rs p : wf bv -> rs_from_bit_vec bv = Ok rs ->
  rs_rank_cut 7 rs true p = Ok (rank_spec false (bits bv) p) /\ rs_rank_cut 7 rs false p = Ok (rank_spec true (bits bv) p).
Proof.
  intros H E. destruct (C12_rank bv rs p H E) as (R1 & R0 & _). rewrite <- R1, <- R0.
  assert (S : forall z, rs_rank_cut 7 rs z p = rs_rank rs z p).
  { intros z. rewrite <- rs_rank_gen_same. unfold rs_rank_cut, rs_rank_gen. rewrite slice_cut_same; [reflexivity|].
    change BLOCK_SIZE with 512. clear. dlia. }
  split; apply S.
Qed.
(** A block of [FastRmq]. The bound also holds for arguments out of bounds or in the wrong order. *)
Theorem C113_range_min r i j : fr_range_min_cut 128 r i j = fr_range_min r i j.
Proof.
  rewrite <- fr_range_min_gen_same. unfold fr_range_min_cut, fr_range_min_gen. destruct (N.eqb_spec (i / 128) (j / 128)) as [E|]; [|reflexivity].
  rewrite slice_cut_same; [reflexivity|]. clear - E. dlia.
Qed.
Theorem C113_fast data r i j : fr_from_vec data = Ok r -> i <= j -> j < lenN data ->
  exists k, fr_range_min_cut 128 r i j = Ok k /\ fast_choice data i j k.
Proof. intros. rewrite C113_range_min. now apply C83_fast. Qed.

(** Neither bound can be lowered: the last position of a block, and ascending data. *)
Theorem C113_tight :
  (exists bv rs, wf bv /\ rs_from_bit_vec bv = Ok rs /\ rs_rank_cut 6 rs false 511 = Diverge) /\
  (exists data r, fr_from_vec data = Ok r /\ lenN data = 128 /\ fr_range_min_cut 127 r 0 127 = Diverge).
Proof.
  split.
  - exists (mkbv (repeat 5 8) 512). eexists. split; [split; [reflexivity|unfold words; cbn; repeat constructor]|]. split; vm_compute; reflexivity.
  - exists (range 0 128). eexists. split; [vm_compute; reflexivity|]. split; vm_compute; reflexivity.
Qed.
Example C113_ex : match rs_from_bit_vec (mkbv (repeat 5 17) 1088), fr_from_vec (range 0 300) with
  | Ok rs, Ok r => rs_rank_cut 7 rs false 1023 = Ok 32 /\ rs_rank_cut 7 rs true 511 = Ok 495 /\ rs_rank_cut 2 rs true 511 = Diverge /\
      fr_range_min_cut 128 r 128 255 = Ok 128 /\ fr_range_min_cut 9 r 130 139 = Diverge /\ fr_range_min_cut 0 r 3 290 = Ok 3
  | _, _ => False end.
Proof. vm_compute. auto 7. Qed.

(** ** C114 *)
Lemma lin0_mono a rs r : forall b sb v, (a <= b)%nat -> search_super0_lin a rs r sb = Ok v -> search_super0_lin b rs r sb = Ok v.
Proof.
  induction a as [|a IH]; intros b sb v H E; destruct b as [|b]; try lia; auto; cbn [search_super0_lin] in *;
    match goal with |- bind ?x _ = _ => destruct x as [go| |]; try discriminate end; cbn [bind] in *; destruct go; auto; try discriminate.
  apply IH; auto; lia.
Qed.
Lemma select0_cut_mono kb a b rs r v : (a <= b)%nat -> rs_select0_cut kb a rs r = Ok v -> rs_select0_cut kb b rs r = Ok v.
Proof.
  intros H. unfold rs_select0_cut, rs_select0_gen. destruct (rrank0 rs <=? r); auto.
  destruct (idx (rsel rs) (r / SELECT_BLOCK_SIZE)) as [e| |]; try discriminate. cbn [bind].
  match goal with |- bind ?x _ = _ -> _ => destruct x as [go| |]; try discriminate end. cbn [bind].
  destruct go; auto. unfold search_super_block0_cut.
  destruct (idx (rsel rs) (r / SELECT_BLOCK_SIZE + 1)) as [e'| |]; try discriminate. cbn [bind].
  destruct (search_super0_bin kb rs r (fst e) (fst e')) as [sb| |]; try discriminate. cbn [bind].
  destruct (search_super0_lin a rs r sb) as [s'| |] eqn:E; try discriminate.
  now rewrite (lin0_mono a rs r b sb s' H E).
Qed.

(** Halvings and linear steps that are enough for any select on [n] bits. *)
Local Notation halvings n := (N.to_nat (N.log2_up (n / 8192 + 1))).
Local Notation steps n := (N.to_nat (n / 8192 + 8)).

Lemma level_selects d B r : level_ok d B ->
  rs_select0_cut (halvings (lenN B)) (steps (lenN B)) d r = rs_select0 d r /\
  rs_select1_cut (halvings (lenN B)) (steps (lenN B)) d r = rs_select1 d r.
Proof.
  intros L. rewrite (lv_s0 _ _ L), (lv_s1 _ _ L). destruct (lv_src _ _ L) as (bv & Hwf & E & <-).
  pose proof (built bv d Hwf E) as G. split.
  - destruct (N.lt_ge_cases r (count false (bits bv))) as [H|H].
    + destruct (hit0 bv r H) as (p & Hp & _ & _ & Ep). destruct (C90_select0 bv d r Hwf E H) as [C1 C2].
      pose proof (N.div_le_mono r (count false (bits bv)) 8192 ltac:(lia) ltac:(lia)) as M.
      destruct (N.eq_dec (r / 8192) (count false (bits bv) / 8192)) as [Q|Q].
      * rewrite C2 by auto. rewrite Ep, lenN_bits, N2Nat.id. pose proof (N.div_le_mono p (blen bv) 8192 ltac:(lia) ltac:(lia)).
        match goal with |- context[?x <=? ?y] => destruct (N.leb_spec x y) as [L'|L'] end; [reflexivity|]. clear - L' H0. lia.
      * apply (select0_cut_mono _ 8); [lia|]. apply C1. lia.
    + pose proof (lv_rank0 _ _ L) as R. pose proof (lv_len _ _ L) as Ln. unfold rs_select0_cut, rs_select0_gen. rewrite R.
      destruct (N.leb_spec (count false (bits bv)) r); [|lia]. now rewrite select_miss, Ln.
  - destruct (N.lt_ge_cases r (count true (bits bv))) as [H|H].
    + destruct (hit1 bv r H) as (p & Hp & _ & _ & Ep).
      pose proof (C91_select1 bv d r (halvings (lenN (bits bv))) (steps (lenN (bits bv))) Hwf E H ltac:(lia)) as C. cbv zeta in C. rewrite C.
      rewrite Ep, lenN_bits, N2Nat.id. pose proof (N.div_le_mono p (blen bv) 8192 ltac:(lia) ltac:(lia)).
      match goal with |- context[?x <=? ?y] => destruct (N.leb_spec x y) as [L'|L'] end; [reflexivity|]. clear - L' H0. lia.
    + assert (R : rrank1 d = count true (bits bv)).
      { assert (Hr : rs_rank1 d (rlen d) = Ok (rrank1 d)) by (unfold rs_rank1, rs_rank; now rewrite N.leb_refl).
        destruct (C12_rank bv d (rlen d) Hwf E) as (R1 & _). rewrite Hr in R1. injection R1 as R1. rewrite R1.
        unfold rank_spec. f_equal. rewrite (lv_len _ _ L). unfold takeN, lenN. rewrite Nat2N.id. apply firstn_all. }
      pose proof (lv_len _ _ L) as Ln. unfold rs_select1_cut, rs_select1_gen. rewrite R.
      destruct (N.leb_spec (count true (bits bv)) r); [|lia]. now rewrite select_miss, Ln.
Qed.
Lemma up_cut rd ds : forall S level e, enc ds S ->
  wm_up_gen (rs_select0_cut (halvings (lenN S)) (steps (lenN S))) (rs_select1_cut (halvings (lenN S)) (steps (lenN S))) rd ds level e = wm_up_loop rd ds level e.
Proof.
  induction ds as [|d ds IH]; intros S level e H; [reflexivity|]. destruct H as (Hn & L & H). cbn [wm_up_gen wm_up_loop].
  pose proof (IH (part S) (level + 1) e H) as I. rewrite (lenN_part S) in I by auto. rewrite I.
  destruct (wm_up_loop rd ds (level + 1) e) as [x| |]; try reflexivity. cbn [bind]. destruct (rd level) as [bit| |]; try reflexivity. cbn [bind].
  assert (El : lenN (map hdb S) = lenN S) by apply lenN_map.
  destruct (bit =? 0); [rewrite <- El; apply (level_selects d _ x L)|].
  destruct (sub x (rrank0 d)) as [y| |]; try reflexivity. cbn [bind]. rewrite <- El. apply (level_selects d _ y L).
Qed.

(** One select on every level, with this many steps each. *)
Theorem C114_select w l k o r : wm_built w l k ->
  (forall s, wm_select_offset_cut (halvings (lenN l)) (steps (lenN l)) w o r s = wm_select_offset w o r s) /\
  (forall s, wm_select_offset_u64_cut (halvings (lenN l)) (steps (lenN l)) w o r s = wm_select_offset_u64 w o r s).
Proof.
  intros Hb. pose proof (wm_built_ok _ _ _ Hb) as G. pose proof (wo_enc _ _ _ G) as En. 
  assert (Q : forall rd, wm_select_gen (rs_select0_cut (halvings (lenN l)) (steps (lenN l))) (rs_select1_cut (halvings (lenN l)) (steps (lenN l))) rd w o r = wm_select_loop rd w o r).
  { intros rd. unfold wm_select_gen, wm_select_loop. destruct (wm_start_loop rd w 0 o) as [st| |]; try reflexivity. cbn [bind].
    destruct (add64 st r) as [e| |]; try reflexivity. cbn [bind]. pose proof (up_cut rd w _ 0 e En) as U. rewrite lenN_map in U. exact U. }
  split; intros s; [unfold wm_select_offset_cut|unfold wm_select_offset_u64_cut]; rewrite Q; reflexivity.
Qed.

(** The documentation promises [O(k)] for all operations; not even [O(k log n)] holds. *)
Theorem C114_refuted : ~ exists c, forall sequence k w r s, 1 <= k -> wm_from_slice sequence k = Ok w ->
  r < lenN (occurrence_positions s 0 sequence) -> Forall (fun x => x < 2 ^ k) sequence ->
  let m := N.to_nat (c * k * (N.log2 (lenN sequence) + 1)) in
  wm_select_offset_u64_cut m m w 0 r s = wm_select_offset_u64 w 0 r s.
Proof.
  intros (c & H). set (e := c + 8). set (m := 2 ^ e). set (n := N.to_nat (8192 * m)). set (l := repeat 1 n ++ [0]).
  assert (Hm : m <> 0) by (apply N.pow_nonzero; lia).
  assert (Ln : lenN l = 8192 * m + 1) by (unfold l; rewrite lenN_app'; unfold lenN; rewrite repeat_length; cbn [length]; unfold n; lia).
  assert (Hl : Forall (fun x => x < 2 ^ 1) l).
  { unfold l. apply Forall_app. split; [|repeat constructor]. apply Forall_forall. intros x Hx. apply repeat_spec in Hx. subst. reflexivity. }
  destruct (C32_from_slice l 1 ltac:(lia) ltac:(lia)) as (w & E & Hb & _).
  assert (Et : map (fun x => x mod 2 ^ 1) l = l).
  { rewrite <- (map_id l) at 2. apply map_ext_in. intros x Hx. apply N.mod_small. rewrite Forall_forall in Hl. now apply Hl. }
  rewrite Et in Hb. pose proof (wm_built_ok _ _ _ Hb) as G.
  assert (Hw : exists d, w = [d]).
  { pose proof (wo_bits _ _ _ G) as B. destruct w as [|d [|d' w]]; [discriminate|eauto|exfalso; unfold lenN in B; cbn [length] in B; lia]. }
  destruct Hw as [d ->]. destruct (wo_enc _ _ _ G) as (_ & L & _).
  set (B := map hdb (map (word_of 1) l)) in L.
  assert (EB : B = repeat true n ++ [false]).
  { unfold B, l. rewrite !map_app. cbn [map]. f_equal. generalize n. induction n0; [reflexivity|cbn [repeat map]; f_equal; auto]. }
  assert (C0 : count false (repeat true n) = 0) by (generalize n; induction n0; [reflexivity|cbn; auto]).
  assert (LB : lenN B = 8192 * m + 1) by (unfold B; rewrite !lenN_map; exact Ln).
  assert (Sel : select_spec false B 0 = 8192 * m).
  { rewrite EB. rewrite <- C0, select_hit. unfold lenN. rewrite repeat_length. unfold n. lia. }
  assert (Cn : count false B = 1).
  { rewrite EB. rewrite count_app, C0. reflexivity. }
  specialize (H l 1 [d] 0 0 ltac:(lia) E).
  assert (Hocc : 0 < lenN (occurrence_positions 0 0 l)).
  { assert (I : In (8192 * m) (occurrence_positions 0 0 l)).
    { unfold occurrence_positions. apply filter_In. split; [apply In_range; lia|]. destruct (N.leb_spec 0 (8192 * m)); [|lia]. cbn [andb].
      replace (8192 * m) with (lenN (repeat 1 n)) by (unfold lenN; rewrite repeat_length; unfold n; lia). unfold l. now rewrite nthN_mid. }
    destruct (occurrence_positions 0 0 l); [contradiction|]. unfold lenN. cbn [length]. lia. }
  specialize (H Hocc Hl). cbv zeta in H. set (b := N.to_nat _) in H.
  assert (Lw : wm_len [d] = 8192 * m + 1) by (rewrite (wm_len_ok _ _ _ G); exact Ln).
  assert (St : wm_start_loop (rd_u64 [d] 0) [d] 0 0 = Ok 0).
  { cbn [wm_start_loop]. change (rd_u64 [d] 0 0) with (Ok 0 : res N). cbn [bind]. unfold wm_down. cbn [N.eqb].
    rewrite (lv_r0 _ _ L). reflexivity. }
  unfold wm_select_offset_u64_cut, wm_select_offset_u64, wm_select_offset_u64_unchecked in H.
  rewrite Lw in H. destruct (N.leb_spec (8192 * m + 1) 0); [lia|]. change (64 <? wm_bits [d]) with false in H. cbn [orb] in H.
  unfold wm_select_gen, wm_select_loop in H. rewrite St in H. cbn [bind] in H. change (add64 0 0) with (Ok 0 : res N) in H. cbn [bind wm_up_gen wm_up_loop] in H.
  change (rd_u64 [d] 0 0) with (Ok 0 : res N) in H. cbn [bind N.eqb] in H.
  rewrite (lv_s0 _ _ L) in H. cbn [bind] in H. destruct (lv_src _ _ L) as (bv & Hwf & Ed & Eb).
  rewrite <- Eb in *. destruct (C90_select0 bv d 0 Hwf Ed ltac:(rewrite Cn; lia)) as [_ C]. rewrite C in H by (rewrite Cn; reflexivity).
  rewrite Sel in H. unfold sample_super in H. change (0 <? 8192) with true in H. cbv iota in H.
  replace (8192 * m / 8192 - 0) with m in H by (rewrite N.mul_comm, N.div_mul by lia; lia).
  unfold b in H. rewrite N2Nat.id in H.
  destruct (N.leb_spec m (c * 1 * (N.log2 (lenN l) + 1))) as [L'|L']; [|discriminate].
  pose proof (log_lt1 c) as P. cbn zeta in P. fold e m in P. rewrite Ln in L'.
  pose proof (N.log2_le_mono (8192 * m + 1) (64 * (128 * m + 1)) ltac:(lia)) as Q.
  rewrite N.mul_1_r in L'. pose proof (N.mul_le_mono_l _ _ c (proj1 (N.add_le_mono_r _ _ 1) Q)). lia.
Qed.
(** The matrix of a super-block of ones and 64 zeros: one linear step to find a zero, none to find the
    ones. Below, a small matrix from the constructor. *)
Example C114_ex : match rs_from_bit_vec (step_vec (2 ^ 64 - 1) 0 1 1), wm_from_slice [1; 3; 0; 3; 2; 3] 2 with
  | Ok d, Ok w => wm_select_offset_u64_cut 0 0 [d] 0 0 0 = Diverge /\ wm_select_offset_u64_cut 0 1 [d] 0 7 0 = Ok (Some 8199) /\
      wm_select_offset_u64_cut 0 0 [d] 5 4000 1 = Ok (Some 4005) /\ wm_select_offset_cut 0 8 w 2 1 (bv_of 2 3) = Ok (Some 5)
  | _, _ => False end.
Proof. vm_compute. auto. Qed.
