(** * C126, C127: how many loop iterations the other constructors take. *)
From Verif Require Import Base Spec BaseFacts BitVecModel BitVecProofs BitVecProofs2 RsVecModel RsVecProofs IterSpec IterFacts GenIterModel GenIterProofs
  EFModel EFProofs PropsEF PropsIter SparseModel PropsSparse BpModel BpMmt CostWaveletModel CostBuildModel PropsCostBuild CostBuild2Model.

Lemma takes_windows p (ws : list N -> bool) : (forall a b r, ws (a :: b :: r) = p a b && ws (b :: r)) ->
  forall l, takes (assert (ws l)) (windows_q p l) (lenN l - 1).
Proof.
  intros H. induction l as [|a [|b r] IH].
  - intros x E q. cbn [windows_q]. change (lenN [] - 1) with 0. destruct x. destruct (N.leb_spec 0 q); [now rewrite N.sub_0_r|lia].
  - intros x E q. cbn [windows_q]. change (lenN [a] - 1) with 0. destruct x. destruct (N.leb_spec 0 q); [now rewrite N.sub_0_r|lia].
  - rewrite lenN_cons. replace (lenN (b :: r) + 1 - 1) with (1 + (lenN (b :: r) - 1)) by (rewrite (lenN_cons b r); lia).
    intros x E q. rewrite H in E. destruct (p a b) eqn:Ep; [|discriminate]. cbn [andb] in E.
    change (windows_q p (a :: b :: r) q) with (let* q := pay 1 q in if p a b then windows_q p (b :: r) q else Panic). rewrite Ep.
    exact (takes_pay _ _ _ 1 IH x E q).
Qed.
Lemma sorted_takes l : takes (assert (windows_sorted l)) (windows_q N.leb l) (lenN l - 1).
Proof. now apply takes_windows. Qed.
Lemma distinct_takes l : takes (assert (windows_distinct l)) (windows_q (fun a b => negb (a =? b)) l) (lenN l - 1).
Proof. now apply takes_windows. Qed.

Lemma flip_words bv p bv' : bv_flip_bit_unchecked bv p = Ok bv' -> lenN (bdata bv') = lenN (bdata bv).
Proof.
  unfold bv_flip_bit_unchecked. intros H. apply bind_inv in H as (d & E & H). injection H as <-. cbn [bdata].
  unfold upd_limb in E. apply bind_inv in E as (x & _ & E). now apply set_idx_len in E.
Qed.
Definition ef_steps (n bound w : N) : N := if n =? 0 then 0 else (n - 1) + n + (2 + n + bound / 2 ^ w + 63) / 64.
Lemma ef_takes w data :
  takes (ef_from_slice w data) (ef_from_slice_q w data) (ef_steps (lenN data) (nthN 0 data (lenN data - 1) - nthN 0 data 0) w).
Proof.
  unfold ef_from_slice, ef_from_slice_q, ef_steps. destruct (N.eqb_spec (lenN data) 0) as [E0|E0].
  - apply (takes_seq 0 0); [|intros u _; apply takes_ok|reflexivity]. exact (rs_takes bv_new).
  - apply (takes_seq (lenN data - 1) (lenN data + (2 + lenN data + (nthN 0 data (lenN data - 1) - nthN 0 data 0) / 2 ^ w + 63) / 64)); [apply sorted_takes| |lia].
    intros u _. cbn beta iota. apply takes_pure. intros zero Ez. apply takes_pure. intros last El. apply takes_pure. intros bound Eb. apply takes_pure. intros _ _.
    rewrite (idx_ok 0) in Ez by lia. injection Ez as <-. rewrite (idx_ok 0) in El by lia. injection El as <-.
    assert (bound = nthN 0 data (lenN data - 1) - nthN 0 data 0) as <- by (unfold sub in Eb; destruct (_ <=? _); [now injection Eb|discriminate]).
    apply (takes_seq (lenN data) ((2 + lenN data + bound / 2 ^ w + 63) / 64)); [apply takes_loop2; [|reflexivity]| |reflexivity].
    + rewrite lenN_combine, lenN_range; lia.
    + intros [up low] E. cbn beta iota.
      apply (forM_keeps (fun '(up, _) => lenN (bdata up) = (2 + lenN data + bound / 2 ^ w + 63) / 64)) in E.
      * cbn beta iota in E. rewrite <- E. apply (takes_seq (lenN (bdata up)) 0); [apply rs_takes|intros v _; apply takes_ok|lia].
      * intros [u1 l1] [i x] [u2 l2] H E1. unfold ef_push in E1. apply bind_inv in E1 as (y & _ & E1). apply bind_inv in E1 as (u3 & E3 & E1).
        apply bind_inv in E1 as (l3 & _ & E1). injection E1 as <- <-. now rewrite (flip_words _ _ _ E3).
      * rewrite N.shiftr_div_pow2. apply (proj1 (bv_from_zeros_ok (2 + lenN data + bound / 2 ^ w))).
Qed.

(** ** C126 *)
(** A rank/select vector takes one step for each 64 bits. *)
Theorem C126_rsvec bv rs : wf bv -> rs_from_bit_vec bv = Ok rs -> forall q,
  let steps := (lenN (bits bv) + 63) / 64 in
  rs_from_bit_vec_q bv q = if steps <=? q then Ok (rs, q - steps) else Diverge.
Proof. intros [H _] E q. rewrite lenN_bits, <- H. cbv zeta. revert rs E q. apply rs_takes. Qed.
(** An Elias-Fano vector of [n] elements: the debug build checks [n - 1] windows, then there are [n]
    steps and one for each 64 bits of the upper vector. *)
Theorem C126_elias_fano w data e : ef_from_slice w data = Ok e -> forall q,
  let n := lenN data in
  let steps := if n =? 0 then 0 else (n - 1) + n + (2 + n + (nthN 0 data (n - 1) - nthN 0 data 0) / 2 ^ w + 63) / 64 in
  ef_from_slice_q w data q = if steps <=? q then Ok (e, q - steps) else Diverge.
Proof. intros E q. revert e E q. apply ef_takes. Qed.
(** With the width of the constructor this is linear, whatever the elements are. *)
Theorem C126_elias_fano_linear data :
  nondecreasing data -> Forall (fun x => x < 2 ^ 64) data -> lenN data < 2 ^ 64 ->
  exists e rest, ef_from_slice (ef_width data) data = Ok e /\ ef_from_slice_q (ef_width data) data (3 * lenN data) = Ok (e, rest).
Proof.
  intros Hs Hd Hn. destruct (N.eq_dec (lenN data) 0) as [E0|E0].
  { destruct data; [|rewrite lenN_cons in E0; lia]. eexists _, _. split; vm_compute; reflexivity. }
  destruct (C54_width data Hs Hd Hn ltac:(lia)) as (Hw & e & E & Hr). destruct (ef_built data _ e Hs Hd Hw E) as [[-> _]|[_ G]]; [easy|].
  destruct (eg_up _ _ _ G) as (bv & _ & Hg & Hl & _). rewrite (good_len _ _ Hg), Hl in Hr.
  exists e. rewrite (C126_elias_fano _ _ _ E). cbv zeta. destruct (N.eqb_spec (lenN data) 0); [lia|].
  unfold eU, eW in Hr. set (top := (nthN 0 data (lenN data - 1) - nthN 0 data 0) / 2 ^ ef_width data) in *.
  assert (H64 : (2 + lenN data + top + 63) / 64 <= lenN data + 1) by (clear - Hr E0; apply N.div_le_upper_bound; lia).
  match goal with |- context [?a <=? ?b] => destruct (N.leb_spec a b) as [H|H] end; [eauto|]. clear - H H64 E0. lia.
Qed.

(** A sparse vector checks the windows of its positions twice more; reading the positions from a bit
    vector takes a step for each bit and one to see the end. *)
Lemma sp_takes w input len : takes (sp_new w input len) (sp_new_q w input len)
  (2 * (lenN input - 1) + ef_steps (lenN input) (nthN 0 input (lenN input - 1) - nthN 0 input 0) w).
Proof.
  unfold sp_new, sp_new_q. set (c := ef_steps _ _ _).
  apply (takes_seq (lenN input - 1) (lenN input - 1 + c)); [apply sorted_takes| |lia]. intros u _. cbn beta iota.
  apply (takes_seq (lenN input - 1) c); [apply distinct_takes| |lia]. intros u' _. cbn beta iota.
  apply (takes_seq c 0); [apply ef_takes| |lia]. intros v _. apply takes_ok.
Qed.
Lemma drain_takes {A} get : forall fuel it (l : list A), gi_drain fuel get it = Ok l -> forall q,
  gi_drain_q fuel get it q = if 1 + lenN l <=? q then Ok (l, q - (1 + lenN l)) else Diverge.
Proof.
  induction fuel as [|fuel IH]; intros it l E q; [discriminate|]. cbn [gi_drain gi_drain_q] in *. unfold pay.
  apply bind_inv in E as ([it' o] & E1 & E). rewrite E1. destruct (N.leb_spec 1 q) as [L|L]; cbn [bind].
  - destruct o as [x|].
    + apply bind_inv in E as (r & E2 & E). injection E as <-. rewrite (IH _ _ E2), lenN_cons.
      destruct (N.leb_spec (1 + lenN r) (q - 1)), (N.leb_spec (1 + (lenN r + 1)) q); try lia; cbn [bind]; [|reflexivity]. do 2 f_equal. lia.
    + injection E as <-. change (1 + lenN (@nil A)) with 1. destruct (N.leb_spec 1 q); [reflexivity|lia].
  - destruct (N.leb_spec (1 + lenN l) q); [lia|reflexivity].
Qed.
Lemma positions_takes b bv : wf bv -> lenN (bits bv) < 2 ^ 64 -> takes (sp_positions b bv) (sp_positions_q b bv) (1 + lenN (bits bv)).
Proof.
  intros H Hl. unfold sp_positions, sp_positions_q.
  apply (takes_seq (1 + lenN (bits bv)) 0); [|intros l _; apply takes_ok|lia].
  intros l E q. rewrite (drain_takes _ _ _ _ E). rewrite (gi_drain_ok (map bitN (bits bv))) with (v := map bitN (bits bv)) in E.
  - injection E as <-. rewrite lenN_map. reflexivity.
  - now rewrite lenN_map.
  - intros. now apply bv_getter.
  - destruct (gi_new_inv (lenN (bits bv))) as (I & Hi & Hr).
    unfold bv_length, gi_R. rewrite <- lenN_bits, lenN_map. split; auto. rewrite Hi, Hr.
    rewrite <- (lenN_map bitN (bits bv)). now rewrite sliceN_all.
  - rewrite map_length. unfold bv_length. rewrite <- lenN_bits. unfold lenN. lia.
Qed.
Theorem C126_sparse w input len s : sp_new w input len = Ok s -> forall q,
  let n := lenN input in
  let steps := if n =? 0 then 0 else 3 * (n - 1) + n + (2 + n + (nthN 0 input (n - 1) - nthN 0 input 0) / 2 ^ w + 63) / 64 in
  sp_new_q w input len q = if steps <=? q then Ok (s, q - steps) else Diverge.
Proof.
  intros E q. cbv zeta. revert s E q. 
  match goal with |- forall s, _ -> forall q, _ = if ?c <=? _ then _ else _ => change (takes (sp_new w input len) (sp_new_q w input len) c) end.
  eapply takes_ext; [reflexivity|reflexivity| |apply sp_takes]. unfold ef_steps. destruct (N.eqb_spec (lenN input) 0) as [->|]; [reflexivity|]. lia.
Qed.
Theorem C126_sparse_from_bitvec w bv s : wf bv -> lenN (bits bv) < 2 ^ 64 -> sp_from_bitvec w bv = Ok s -> forall q,
  let l := positions true (bits bv) in
  let n := lenN l in
  let steps := 1 + lenN (bits bv) + (if n =? 0 then 0 else 3 * (n - 1) + n + (2 + n + (nthN 0 l (n - 1) - nthN 0 l 0) / 2 ^ w + 63) / 64) in
  sp_from_bitvec_q w bv q = if steps <=? q then Ok (s, q - steps) else Diverge.
Proof.
  intros H Hl E q. cbv zeta. revert s E q.
  match goal with |- forall s, _ -> forall q, _ = if ?c <=? _ then _ else _ => change (takes (sp_from_bitvec w bv) (sp_from_bitvec_q w bv) c) end.
  unfold sp_from_bitvec, sp_from_bitvec_q. eapply takes_seq; [now apply positions_takes| |reflexivity].
  intros l E. change 1 with (bitN true) in E. rewrite sp_positions_ok in E by auto. injection E as <-. cbn beta iota.
  intros s E q. exact (C126_sparse _ _ _ _ E q).
Qed.
Example C126_ex :
  rs_from_bit_vec_q (mkbv [5; 7] 70) 1 = Diverge /\ (exists r, rs_from_bit_vec_q (mkbv [5; 7] 70) 2 = Ok (r, 0)) /\
  ef_from_slice_q 4 ex_ef 13 = Diverge /\ (exists r, ef_from_slice_q 4 ex_ef 14 = Ok (r, 0)) /\
  sp_new_q 1 [3; 5] 9 5 = Diverge /\ (exists r, sp_new_q 1 [3; 5] 9 6 = Ok (r, 0)) /\
  sp_from_bitvec_q 1 (mkbv [40] 9) 15 = Diverge /\ (exists r, sp_from_bitvec_q 1 (mkbv [40] 9) 16 = Ok (r, 0)).
Proof. repeat split; try (vm_compute; reflexivity); eexists; vm_compute; reflexivity. Qed.

(** ** C127: a tree takes a step for each parenthesis, for each inner node and each level of the
    min-max tree, and for each 64 bits. *)
Lemma levels_takes j : forall nodes start,
  takes (mmt_levels (S j) nodes (2 ^ N.of_nat j) start) (mmt_levels_q (S j) nodes (2 ^ N.of_nat j) start) (N.of_nat j + 2 * 2 ^ N.of_nat j).
Proof.
  induction j as [|j IH]; intros nodes start.
  - change (2 ^ N.of_nat 0) with 1. cbn [mmt_levels mmt_levels_q].
    apply (takes_ext (let* n := forM (range 0 1) nodes (mmt_level_step start) in Ok n) _ (fun q => let* q := pay 1 q in
      let* '(n, q) := forM_q (range 0 1) nodes (fun nodes i => free (mmt_level_step start nodes i)) q in Ok (n, q)) _ (1 + 1)); [reflexivity|reflexivity|reflexivity|].
    apply (takes_pay _ (fun q => let* '(n, q) := forM_q (range 0 1) nodes (fun nodes i => free (mmt_level_step start nodes i)) q in Ok (n, q)) 1 1).
    apply (takes_seq 1 0); [now apply takes_loop|intros n _; apply takes_ok|reflexivity].
  - remember (S j) as m eqn:Em. cbn [mmt_levels mmt_levels_q].
    assert (Ep : 2 ^ N.of_nat m = 2 * 2 ^ N.of_nat j) by (subst m; rewrite Nat2N.inj_succ; apply N.pow_succ_r').
    pose proof (pow2_pos (N.of_nat j)) as Hp.
    replace (N.of_nat m + 2 * 2 ^ N.of_nat m) with (1 + (2 ^ N.of_nat m + (N.of_nat j + 2 * 2 ^ N.of_nat j))) by (rewrite Ep; subst m; lia).
    apply (takes_pay _ (fun q => let* '(nodes, q) := forM_q (range 0 (2 ^ N.of_nat m)) nodes (fun nodes i => free (mmt_level_step start nodes i)) q in
      if 2 ^ N.of_nat m =? 1 then Ok (nodes, q) else let* start' := sub start (2 ^ N.of_nat m / 2) in mmt_levels_q m nodes (2 ^ N.of_nat m / 2) start' q)).
    apply (takes_seq (2 ^ N.of_nat m) (N.of_nat j + 2 * 2 ^ N.of_nat j)); [apply takes_loop; rewrite lenN_range; lia| |reflexivity].
    intros n _. cbn beta iota. destruct (N.eqb_spec (2 ^ N.of_nat m) 1); [lia|]. apply takes_pure. intros s' _.
    replace (2 ^ N.of_nat m / 2) with (2 ^ N.of_nat j) by (rewrite Ep, N.mul_comm, N.div_mul; lia). subst m. apply IH.
Qed.
Lemma tree_takes bv B : takes (mmt_excess_tree bv B) (mmt_excess_tree_q bv B)
  (if blen bv =? 0 then 0 else blen bv + (2 ^ height (nleaves (blen bv) B) + height (nleaves (blen bv) B) - 1)).
Proof.
  unfold mmt_excess_tree, mmt_excess_tree_q. destruct (N.eqb_spec (blen bv) 0) as [E0|E0]; [apply takes_ok|].
  apply takes_pure. intros u Eb. destruct (N.eqb_spec B 0) as [|Hb]; [discriminate|].
  fold (nleaves (blen bv) B). set (n := nleaves (blen bv) B). set (h := height n).
  assert (Hn : 1 <= n) by (unfold n; apply leaves_pos; lia). assert (Hh1 : 1 <= h) by (apply height_pos).
  assert (Hh : 2 ^ h = 2 * 2 ^ (h - 1)) by (rewrite <- pow2_succ; f_equal; lia).
  assert (Es : N.max 1 (next_pow2 n / 2) = 2 ^ (h - 1)).
  { unfold next_pow2. unfold h, height in *. destruct (N.eq_dec n 1) as [E1|E1]; [rewrite E1; reflexivity|].
    assert (1 <= N.log2_up n) by (pose proof (N.log2_up_pos n); lia). replace (N.max 1 (N.log2_up n)) with (N.log2_up n) in * by lia. rewrite Hh, N.mul_comm, N.div_mul by lia.
    pose proof (pow2_pos (N.log2_up n - 1)). lia. }
  apply (takes_seq (blen bv) (2 ^ h + h - 1)); [apply takes_loop2; [rewrite lenN_range; lia|reflexivity]| |reflexivity].
  intros [nodes cur] _. cbn beta iota. apply takes_pure. intros nodes' _. cbv zeta. apply takes_pure. intros start _. rewrite Es, N.log2_pow2 by lia.
  pose proof (levels_takes (N.to_nat (h - 1)) nodes' start) as T. rewrite N2Nat.id in T.
  replace (2 ^ h + h - 1) with (h - 1 + 2 * 2 ^ (h - 1)) by lia. exact T.
Qed.
Theorem C127_tree B bv t : wf bv -> bp_from_bit_vector B bv = Ok t -> forall q,
  let n := lenN (bits bv) in
  let leaves := (n + B - 1) / B in
  let h := N.max 1 (N.log2_up leaves) in
  let steps := if n =? 0 then 0 else n + (2 ^ h + h - 1) + (n + 63) / 64 in
  bp_from_bit_vector_q B bv q = if steps <=? q then Ok (t, q - steps) else Diverge.
Proof.
  intros [H _] E q. rewrite lenN_bits. cbv zeta. revert t E q.
  match goal with |- forall s, _ -> forall q, _ = if ?c <=? _ then _ else _ => change (takes (bp_from_bit_vector B bv) (bp_from_bit_vector_q B bv) c) end.
  unfold bp_from_bit_vector, bp_from_bit_vector_q. eapply takes_seq; [apply tree_takes| |].
  - intros m _. cbn beta iota. apply (takes_seq (lenN (bdata bv)) 0); [apply rs_takes|intros rs _; apply takes_ok|reflexivity].
  - rewrite H. destruct (N.eqb_spec (blen bv) 0) as [->|]; reflexivity || (unfold height, nleaves, div_ceil; lia).
Qed.
(** The min-max tree adds at most three steps for each block. *)
Theorem C127_linear B bv t : wf bv -> 0 < B -> bp_from_bit_vector B bv = Ok t ->
  let n := lenN (bits bv) in
  exists rest, bp_from_bit_vector_q B bv (n + 3 * ((n + B - 1) / B) + (n + 63) / 64) = Ok (t, rest).
Proof.
  intros H HB E n. rewrite (C127_tree _ _ _ H E). cbv zeta. fold n. destruct (N.eqb_spec n 0); [match goal with |- context [0 <=? ?b] => destruct (N.leb_spec 0 b); [eauto|lia] end|].
  set (m := (n + B - 1) / B). assert (Hm : 1 <= m) by (apply N.div_le_lower_bound; lia).
  assert (Hh : 2 ^ N.max 1 (N.log2_up m) + N.max 1 (N.log2_up m) - 1 <= 3 * m).
  { destruct (N.eq_dec m 1) as [->|]; [cbn; lia|]. destruct (N.log2_up_spec m ltac:(lia)) as [H1 _].
    assert (H2 : 1 <= N.log2_up m) by (pose proof (N.log2_up_pos m); lia). replace (N.max 1 (N.log2_up m)) with (N.log2_up m) by lia.
    assert (H3 : 2 ^ N.log2_up m = 2 * 2 ^ N.pred (N.log2_up m)) by (rewrite <- N.pow_succ_r'; f_equal; lia).
    pose proof (N.pow_gt_lin_r 2 (N.pred (N.log2_up m)) ltac:(lia)). lia. }
  match goal with |- context [?a <=? ?b] => destruct (N.leb_spec a b) as [L|L] end; [eauto|]. clear - L Hh. lia.
Qed.
Example C127_ex :
  bp_from_bit_vector_q 4 (mkbv [55] 10) 15 = Diverge /\ (exists t, bp_from_bit_vector_q 4 (mkbv [55] 10) 16 = Ok (t, 0)) /\
  (exists t, bp_from_bit_vector_q 4 bv_new 0 = Ok (t, 0)).
Proof. repeat split; try (vm_compute; reflexivity); eexists; vm_compute; reflexivity. Qed.
