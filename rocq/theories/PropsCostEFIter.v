(** * Property C119: the cost of the Elias-Fano iterators. *)
From Verif Require Import Base Spec BaseFacts WordFacts BitVecModel BitVecProofs BitVecProofs2 RsVecModel
  PdepProofs RsVecProofs RsVecSelect RsEqProofs IterSpec IterFacts IterLazy RsIterModel RsIterProofs GenIterModel GenIterProofs
  EFModel EFProofs EFQuery EFIterProofs CostModel CostIterModel CostEFIterModel
  PropsBitVec PropsRsVec PropsEF PropsCost PropsCostEF PropsCostIter PropsCostDrain.

(** The position of the k-th element's bit in the upper vector. *)
Definition ef_pos (w : N) (data : list N) (k : N) : N := (nthN 0 data k - nthN 0 data 0) / 2 ^ w + k + 1.
(** The length of the upper vector. *)
Definition ef_upper_len (w : N) (data : list N) : N := ef_pos w data (lenN data - 1) + 2.
(** The super-blocks from the select sample to the last element's bit. *)
Definition max_steps (w : N) (data : list N) : N :=
  let r := lenN data - 1 in
  ef_pos w data r / 8192 - (if r <? 8192 then 0 else ef_pos w data (8192 * (r / 8192) - 1) / 8192).

Section EF.
Variables (data : list N) (w : N) (e : ef) (kb : nat).
Hypothesis Hsorted : nondecreasing data.
Hypothesis Hwords : Forall (fun x => x < U64) data.
Hypothesis Hne : 0 < lenN data.
Hypothesis Hw : w < 64.
Hypothesis G : ef_good data w e.
Hypothesis Hn : lenN data < U64.
Hypothesis Hkb : N.log2_up (ef_upper_len w data / 8192 + 1) <= N.of_nat kb.
Local Notation n := (lenN data).

Lemma upper_vec : exists bv, wf bv /\ rs_good bv (ef_upper e) /\ posz false bv = ePl data w /\
  lenN (bits bv) = ef_upper_len w data /\ count true (bits bv) = n /\
  forall k, k < n -> select_spec true (bits bv) k = ef_pos w data k.
Proof using Hsorted Hwords Hne Hw G Hn.
  clear Hkb. destruct (up_bits data w e Hsorted Hwords Hne Hw G) as (bv & H1 & H2 & H3 & H4 & H5).
  destruct (up_positions data w e Hsorted Hwords Hne Hw G Hn) as (bv' & H1' & H2' & H3').
  exists bv'. split; auto. split; auto. split; auto. split; [|split].
  - rewrite lenN_bits, <- (good_len _ _ H2'), (good_len _ _ H2), H3. unfold ef_upper_len, ef_pos, eU, eW. lia.
  - rewrite <- lenN_positions. change (lenN (posz false bv') = n). rewrite H3'. now apply (lenN_ePl data w e).
  - intros k Hk. unfold select_spec. change (positions true (bits bv')) with (posz false bv'). rewrite H3'.
    rewrite (getN_ePl data w e) by auto. reflexivity.
Qed.

(** The iterator of the upper vector has made [r] calls, and so has this one. *)
Lemma ei_run ks bv : wf bv -> rs_good bv (ef_upper e) -> count true (bits bv) = n ->
  lenN (bits bv) = ef_upper_len w data ->
  forall r it v, ei_R data w e it v -> fresh_after false (ef_upper e) (N.to_nat r) = Ok (ei_up it) -> gi_index (ei_gi it) = r ->
  lenN ks <= lenN v -> r + lenN ks <= n -> covers bv r ks = true ->
  ei_run_cut kb ks e it = Ok (takeN (lenN ks) v).
Proof using Hsorted Hwords Hne Hw G Hn Hkb.
  intros Hwf Gv Hc Hl. induction ks as [|k ks IH]; intros r it v R Ef Hi Hv Hb C; [reflexivity|].
  rewrite lenN_cons in *. cbn [ei_run_cut covers] in *. apply andb_true_iff in C as [C1 C2].
  destruct (iter1_cost bv (ef_upper e) r kb k Hwf Gv ltac:(lia) ltac:(now rewrite Hl)) as (u & u' & Eu & En & Ec).
  rewrite Ef in Eu. injection Eu as Eu. rewrite <- Eu in *. rewrite C1 in Ec.
  destruct (ei_next_ok data w e Hsorted Hwords Hne Hw G Hn it v R) as (it' & E' & R' & Hi').
  assert (En' : ei_next_cut kb k e it = ei_next e it).
  { unfold ei_next_cut, ei_next, sel_next. now rewrite Ec, En. }
  rewrite En', E'. cbn [bind].
  destruct v as [|x v]; [rewrite lenN_nil in Hv; lia|]. change (getN (x :: v) 0) with (Some x). cbv iota.
  rewrite lenN_cons in *. change (dropN 1 (x :: v)) with v in R'.
  rewrite (IH (r + 1) it' v); auto; try lia.
  - cbn [bind]. unfold takeN. now replace (N.to_nat (lenN ks + 1)) with (S (N.to_nat (lenN ks))) by lia.
  - assert (ei_up it' = u') as ->.
    { unfold ei_next, sel_next in E'. rewrite En in E'. cbn [bind] in E'.
      destruct (ei_value _ _ _) as [z| |]; try discriminate. cbn [bind] in E'.
      destruct (add64 _ _) as [z'| |]; try discriminate. cbn [bind] in E'. injection E' as <- _. reflexivity. }
    replace (N.to_nat (r + 1)) with (S (N.to_nat r)) by lia.
    unfold fresh_after in *. destruct (sel_new false (ef_upper e)) as [i0| |]; try discriminate. cbn [bind] in *.
    rewrite after_add, Ef. cbn [bind sel_next]. now rewrite En.
Qed.

Lemma ei_total : exists it ks, ef_iter_new e = Ok it /\ lenN ks = n /\ ei_run_cut kb ks e it = Ok data /\
  total ks <= ef_pos w data (n - 1).
Proof using Hsorted Hwords Hne Hw G Hn Hkb.
  destruct upper_vec as (bv & Hwf & Gv & HP & Hl & Hc & Hs).
  destruct (ef_iter_new_ok data w e Hsorted Hwords Hne Hw G Hn) as (it & Ei & R & Hi).
  destruct (best_ok bv (N.to_nat n) 0) as (B1 & B2 & B3). cbn [N.to_nat Nat.add sum_to] in B3. rewrite N.add_0_r in B3.
  assert (B4 : lenN (best bv 0 (N.to_nat n)) = n) by (unfold lenN at 1; rewrite B1; apply N2Nat.id).
  exists it, (best bv 0 (N.to_nat n)). split; auto. split; auto. split.
  - rewrite (ei_run _ bv Hwf Gv Hc Hl 0 it data); auto; try lia.
    + rewrite B4. now rewrite takeN_all by lia.
    + unfold fresh_after. unfold ef_iter_new in Ei. destruct (sel_new false (ef_upper e)) as [u| |]; try discriminate.
      cbn [bind] in Ei. injection Ei as <-. reflexivity.
  - rewrite B3. pose proof (steps_total bv (N.to_nat n)) as T. rewrite N2Nat.id, Hc in T.
    specialize (T Hne ltac:(lia)). rewrite Hs in T by lia. exact T.
Qed.

Lemma ei_max_cost it kl : ef_iter_new e = Ok it ->
  ei_max_cut kb kl e it = if max_steps w data <=? N.of_nat kl then ei_max e it else Diverge.
Proof using Hsorted Hwords Hne Hw G Hn Hkb.
  intros Ei. destruct upper_vec as (bv & Hwf & Gv & HP & Hl & Hc & Hs).
  assert (HPn : lenN (posz false bv) = n) by (rewrite HP; now apply (lenN_ePl data w e)).
  destruct (fresh_state false bv (ef_upper e) Hwf Gv O) as (u & Eu & R & Er & Eb & Es); [lia|].
  unfold fresh_after in Eu. cbn [after_next] in Eu. unfold ef_iter_new in Ei.
  destruct (sel_new false (ef_upper e)) as [u'| |]; try discriminate. cbn [bind] in *. injection Eu as ->. injection Ei as <-.
  rewrite HPn in Eb. change (N.of_nat 0) with 0 in *. change (0 =? 0) with true in Es. cbv iota in Es. change (0 / 8192) with 0 in Es.
  unfold ei_max_cut, ei_max, ei_last_cut, ei_last. cbn [ei_gi ei_up].
  assert (Eg : gi_empty (gi_new (ef_n e)) = false).
  { rewrite (eg_n _ _ _ G). unfold gi_new, gi_empty. destruct (N.eqb_spec n 0); [lia|]. cbn. now apply N.ltb_ge, N.le_0_l. }
  rewrite Eg. unfold sel_last_cut, sel_last, sel_len. rewrite Eb, Er.
  destruct (N.eqb_spec (n - 1 + 1 - 0) 0) as [?|Hn1]; [lia|]. unfold advance_by, sel_len. rewrite Eb, Er.
  destruct (N.leb_spec (n - 1 + 1 - 0 - 1) (n - 1 + 1 - 0)); [|lia].
  replace (0 + (n - 1 + 1 - 0 - 1)) with (n - 1) by lia.
  destruct (hit1 bv (n - 1) ltac:(lia)) as (p & Hp & Hb & Ep & Esel). rewrite Hs in Esel by lia.
  unfold sel_next. set (u2 := with_rank u (n - 1)).
  assert (C : select_next_1_cut kb kl (ef_upper e) u2 =
    if max_steps w data <=? N.of_nat kl then select_next_1 (ef_upper e) u2 else Diverge).
  { rewrite (next1_cost bv (ef_upper e) u2 p (n - 1) kb kl); auto; try reflexivity; try (now rewrite Hl).
    change (it_rank u2) with (n - 1). change (it_sb u2) with (it_sb u). rewrite Es.
    assert (St : p / 8192 - sample_super true (bits bv) (n - 1) = max_steps w data).
    { unfold max_steps, sample_super. rewrite Esel. destruct (N.ltb_spec (n - 1) 8192); auto. rewrite Hs; auto. dlia. }
    rewrite St. destruct (_ && _) eqn:Ec; auto. apply andb_true_iff in Ec as [_ Ec]. apply N.ltb_lt in Ec.
    destruct (N.leb_spec (max_steps w data) (N.of_nat kl)); auto. lia. }
  rewrite C. destruct (max_steps w data <=? N.of_nat kl); auto.
Qed.
End EF.

(** ** C119 *)
Theorem C119_total data w e kb :
  nondecreasing data -> Forall (fun x => x < 2 ^ 64) data -> w < 64 -> 0 < lenN data -> lenN data < 2 ^ 64 ->
  ef_from_slice w data = Ok e -> N.log2_up (ef_upper_len w data / 8192 + 1) <= N.of_nat kb ->
  exists it ks, ef_iter_new e = Ok it /\ lenN ks = lenN data /\ ei_run_cut kb ks e it = Ok data /\
    total ks <= ef_pos w data (lenN data - 1).
Proof.
  intros Hs Hd Hw Hne Hn E Hk. destruct (ef_built data w e Hs Hd Hw E) as [(-> & _)|[_ G]]; [discriminate Hne|].
  now apply ei_total.
Qed.
Theorem C119_linear data e kb :
  nondecreasing data -> Forall (fun x => x < 2 ^ 64) data -> 0 < lenN data -> lenN data < 2 ^ 64 ->
  let w := ef_width data in
  ef_from_slice w data = Ok e -> N.log2_up (ef_upper_len w data / 8192 + 1) <= N.of_nat kb ->
  exists it ks, ef_iter_new e = Ok it /\ lenN ks = lenN data /\ ei_run_cut kb ks e it = Ok data /\
    total ks <= 3 * lenN data.
Proof.
  intros Hs Hd Hne Hn w E Hk. destruct (C54_width data Hs Hd Hn Hne) as (Hw & e' & E' & Hl).
  destruct (C119_total data w e kb Hs Hd Hw Hne Hn E Hk) as (it & ks & H1 & H2 & H3 & H4).
  exists it, ks. repeat (split; [auto|]). fold w in E'. rewrite E in E'. injection E' as <-.
  destruct (ef_built data w e Hs Hd Hw E) as [(-> & _)|[_ G]]; [discriminate Hne|].
  destruct (upper_vec data w e Hs Hd Hne Hw G Hn) as (bv & B1 & B2 & _ & B4 & _).
  rewrite (good_len _ _ B2), <- lenN_bits, B4 in Hl. unfold ef_upper_len in Hl. lia.
Qed.
Theorem C119_max data w e it kb kl :
  nondecreasing data -> Forall (fun x => x < 2 ^ 64) data -> w < 64 -> 0 < lenN data -> lenN data < 2 ^ 64 ->
  ef_from_slice w data = Ok e -> N.log2_up (ef_upper_len w data / 8192 + 1) <= N.of_nat kb ->
  ef_iter_new e = Ok it ->
  ei_max_cut kb kl e it = if max_steps w data <=? N.of_nat kl then ei_max e it else Diverge.
Proof.
  intros Hs Hd Hw Hne Hn E Hk Ei. destruct (ef_built data w e Hs Hd Hw E) as [(-> & _)|[_ G]]; [discriminate Hne|].
  now apply ei_max_cost.
Qed.

Lemma ei_max_cut_mono a b kl e it v : (a <= b)%nat -> ei_max_cut a kl e it = Ok v -> ei_max_cut b kl e it = Ok v.
Proof.
  intros H. unfold ei_max_cut, ei_last_cut. destruct (gi_empty _); auto. unfold sel_last_cut.
  destruct (_ =? 0); auto. destruct (advance_by _ _) as [u ok]. destruct ok; auto.
  destruct (select_next_1_cut a kl (ef_upper e) u) as [[u' o]| |] eqn:E; try discriminate.
  now rewrite (next1_cut_mono a b kl _ _ _ H E).
Qed.

(** Zeros, then one value above the number of elements. *)
Definition jump (t : N) : list N := replicate (3 * 2 ^ t - 1) 0 ++ [2 ^ (t + 2)].
Lemma jump_len t : lenN (jump t) = 3 * 2 ^ t.
Proof. assert (2 ^ t <> 0) by (apply N.pow_nonzero; lia). unfold jump. rewrite lenN_app, lenN_replicate. cbn [lenN length]. change (lenN [2 ^ (t + 2)]) with 1. lia. Qed.
Lemma jump_nth t i : i < 3 * 2 ^ t -> nthN 0 (jump t) i = if i =? 3 * 2 ^ t - 1 then 2 ^ (t + 2) else 0.
Proof.
  intros H. unfold jump. rewrite nthN_app, lenN_replicate.
  destruct (N.ltb_spec i (3 * 2 ^ t - 1)), (N.eqb_spec i (3 * 2 ^ t - 1)); try lia.
  - now apply nthN_replicate.
  - subst. now rewrite N.sub_diag.
Qed.
Lemma jump_sorted t : nondecreasing (jump t).
Proof.
  intros i j x y Hij Hx Hy. pose proof (getN_some_lt _ _ _ Hy) as Hj. rewrite jump_len in Hj.
  apply getN_Some_inv in Hx, Hy. destruct Hx as [_ Hx], Hy as [_ Hy]. rewrite <- (Hx 0), <- (Hy 0). clear Hx Hy. rewrite !jump_nth by lia.
  destruct (N.eqb_spec i (3 * 2 ^ t - 1)), (N.eqb_spec j (3 * 2 ^ t - 1)); lia.
Qed.
Lemma jump_words t : t <= 61 -> Forall (fun x => x < 2 ^ 64) (jump t).
Proof.
  intros Ht. apply Forall_app. split.
  - apply Forall_forall. intros x Hx. apply repeat_spec in Hx. now subst.
  - constructor; auto. apply N.pow_lt_mono_r; lia.
Qed.
Lemma jump_width t : 1 <= t -> ef_width (jump t) = 0.
Proof.
  intros Ht. assert (2 <= 2 ^ t) by (change 2 with (2 ^ 1) at 1; apply N.pow_le_mono_r; lia).
  unfold ef_width. rewrite jump_len, !jump_nth, N.eqb_refl by lia.
  destruct (N.eqb_spec 0 (3 * 2 ^ t - 1)); [lia|]. rewrite (N.max_l (3 * 2 ^ t)) by lia. rewrite N.sub_0_r.
  assert (E0 : 2 ^ (t + 2) = 4 * 2 ^ t) by (rewrite N.pow_add_r; change (2 ^ 2) with 4; lia).
  rewrite (N.max_l (2 ^ (t + 2)) 2) by lia. rewrite N.log2_up_pow2 by lia.
  assert (E1 : N.log2_up (3 * 2 ^ t) = N.succ (t + 1)).
  { apply N.log2_up_unique; [lia|]. rewrite N.pred_succ, N.pow_succ_r', N.pow_add_r. change (2 ^ 1) with 2. lia. }
  assert (E2 : N.log2_up (3 * 2 ^ t + 2) = N.succ (t + 1)).
  { apply N.log2_up_unique; [lia|]. rewrite N.pred_succ, N.pow_succ_r', N.pow_add_r. change (2 ^ 1) with 2. lia. }
  rewrite E1, E2. lia.
Qed.
Lemma jump_steps t : 1 <= t -> 2 ^ t / 2048 <= max_steps 0 (jump t).
Proof.
  intros Ht. assert (2 <= 2 ^ t) by (change 2 with (2 ^ 1) at 1; apply N.pow_le_mono_r; lia).
  assert (E0 : 2 ^ (t + 2) = 4 * 2 ^ t) by (rewrite N.pow_add_r; change (2 ^ 2) with 4; lia).
  unfold max_steps. rewrite jump_len. set (m := 2 ^ t) in *.
  assert (P : forall i, i < 3 * m - 1 -> ef_pos 0 (jump t) i = i + 1).
  { intros i Hi. unfold ef_pos. rewrite !jump_nth by (fold m; lia). fold m.
    destruct (N.eqb_spec i (3 * m - 1)), (N.eqb_spec 0 (3 * m - 1)); lia. }
  assert (L : ef_pos 0 (jump t) (3 * m - 1) = 7 * m).
  { unfold ef_pos. rewrite !jump_nth by (fold m; lia). fold m. rewrite N.eqb_refl, E0.
    destruct (N.eqb_spec 0 (3 * m - 1)); [lia|]. rewrite N.sub_0_r. change (2 ^ 0) with 1. rewrite N.div_1_r. lia. }
  rewrite L. clear L. destruct (N.ltb_spec (3 * m - 1) 8192) as [Hs|Hs].
  - clear - H. dlia.
  - rewrite P by (clear - H Hs; dlia). clear - H Hs. dlia.
Qed.

(** Linear in the number of elements, up to the largest vectors whose elements fit 64 bits. *)
Theorem C119_refuted t : 1 <= t -> t <= 61 -> exists data e it,
  nondecreasing data /\ Forall (fun x => x < 2 ^ 64) data /\ lenN data = 3 * 2 ^ t /\
  ef_from_slice (ef_width data) data = Ok e /\ ef_iter_new e = Ok it /\
  forall kb kl v, N.of_nat kl < 2 ^ t / 2048 -> ei_max_cut kb kl e it <> Ok v.
Proof.
  intros Ht Ht'. pose proof (jump_sorted t) as Hs. pose proof (jump_words t Ht') as Hd. pose proof (jump_len t) as Hl.
  assert (2 ^ t <= 2 ^ 61) by (apply N.pow_le_mono_r; lia). assert (2 ^ t <> 0) by (apply N.pow_nonzero; lia).
  assert (Hn : lenN (jump t) < 2 ^ 64) by (rewrite Hl; change (2 ^ 64) with (8 * 2 ^ 61); lia).
  destruct (ef_from_slice_ok (jump t) 0) as (e & E & G); auto; [lia|lia|].
  destruct (ef_iter_new_ok (jump t) 0 e Hs Hd ltac:(lia) ltac:(lia) G Hn) as (it & Ei & _).
  exists (jump t), e, it. rewrite (jump_width t Ht). repeat (split; [auto|]).
  intros kb kl v Hk C. set (b := (kb + N.to_nat (N.log2_up (ef_upper_len 0 (jump t) / 8192 + 1)))%nat).
  apply (ei_max_cut_mono kb b) in C; [|unfold b; lia].
  rewrite (C119_max (jump t) 0 e it b kl) in C; auto; try (unfold b; lia).
  pose proof (jump_steps t Ht). destruct (N.leb_spec (max_steps 0 (jump t)) (N.of_nat kl)); [lia|discriminate].
Qed.

(** The last value's bit is in the second super-block: one step finds the maximum, none does not; the five calls of
    [next] need one step altogether. *)
Example C119_ex : match ef_from_slice 0 [0; 3; 3; 40; 9000] with
  | Ok e => match ef_iter_new e with
      | Ok it => ei_max_cut 5 0 e it = Diverge /\ ei_max_cut 5 1 e it = Ok (Some 9000) /\
          ei_run_cut 5 [0; 0; 0; 0; 1]%nat e it = Ok [0; 3; 3; 40; 9000] /\ ei_run_cut 5 [0; 0; 0; 0; 0]%nat e it = Diverge
      | _ => False
      end
  | _ => False
  end.
Proof. vm_compute. repeat split. Qed.
