(** * Properties C70 and C71: which arguments the wavelet constructors accept, and the matrix with no
    bits per element. *)
From Verif Require Import Base Spec BaseFacts WordFacts BitVecModel BitVecProofs BitVecProofs2 RsVecModel RsVecProofs
  IterSpec IterFacts GenIterModel GenIterProofs PropsIter WaveletModel WaveletProofs WaveletOrder WaveletBuild WaveletCount WaveletQuery WaveletAnswer PropsWavelet.

(** ** Loops that stop with a panic. *)
Lemma forM_panic {A S} (P : S -> Prop) (f : S -> A -> res S) bad : forall l s,
  P s -> (forall s x, In x l -> P s -> f s x = Panic \/ exists s', f s x = Ok s' /\ P s') ->
  In bad l -> (forall s, P s -> f s bad = Panic) -> forM l s f = Panic.
Proof.
  induction l as [|x l IH]; intros s Hs Hf Hi Hb; [destruct Hi|]. cbn [forM].
  destruct (Hf s x (or_introl eq_refl) Hs) as [E|(s' & E & Hs')]; rewrite E; cbn [bind]; [reflexivity|].
  apply IH; auto.
  - intros; apply Hf; auto. now right.
  - destruct Hi as [Hi|Hi]; [|auto]. subst. rewrite (Hb s Hs) in E. discriminate.
Qed.
Lemma idx_cases {A} (l : list A) i : idx l i = Panic \/ exists x, idx l i = Ok x.
Proof. unfold idx. destruct (_ <? _); [|auto]. destruct (nth_error _ _); eauto. Qed.
Lemma set_idx_cases {A} (l : list A) i v : set_idx l i v = Panic \/ exists m, set_idx l i v = Ok m /\ lenN m = lenN l.
Proof. unfold set_idx. destruct (_ <? _); [|auto]. right. eexists. split; [reflexivity|]. apply lenN_set_nth. Qed.
Lemma bind_cases {A B} (P : B -> Prop) (r : res A) (f : A -> res B) : r = Panic \/ (exists x, r = Ok x) ->
  (forall x, r = Ok x -> f x = Panic \/ exists y, f x = Ok y /\ P y) ->
  (let* x := r in f x) = Panic \/ exists y, (let* x := r in f x) = Ok y /\ P y.
Proof. intros [E|(x & E)] Hf; rewrite E; cbn [bind]; auto. Qed.
Lemma incr_cases l i : incr l i = Panic \/ exists m, incr l i = Ok m /\ lenN m = lenN l.
Proof. unfold incr. apply bind_cases; [apply idx_cases|]. intros x _. apply set_idx_cases. Qed.
Lemma cases_weak {A} (P : A -> Prop) r : r = Panic \/ (exists y, r = Ok y /\ P y) -> r = Panic \/ exists y, r = Ok y.
Proof. intros [H|(y & H & _)]; eauto. Qed.
Lemma bv_set_unchecked_cases d i b : bv_set_unchecked d i b = Panic \/ exists d', bv_set_unchecked d i b = Ok d'.
Proof.
  unfold bv_set_unchecked, upd_limb. destruct (idx_cases (bdata d) (i / 64)) as [E|(x & E)]; rewrite E; cbn [bind]; [auto|].
  match goal with |- context [set_idx ?l ?i ?v] => destruct (set_idx_cases l i v) as [E2|(m & E2 & _)]; rewrite E2 end; cbn [bind]; eauto.
Qed.

Lemma pc_first_panics seq k h data bad :
  In bad seq -> lenN h <= bad \/ k = 0 -> pc_first k (lenN seq) (seq_bit seq) (idx seq) h data = Panic.
Proof.
  intros Hin Hb. apply In_nth with (d := 0) in Hin as (m & Hm & Ej).
  assert (Hj : N.of_nat m < lenN seq) by (unfold lenN; lia). assert (Ej' : nthN 0 seq (N.of_nat m) = bad) by (unfold nthN; now rewrite Nat2N.id).
  clear Ej Hm. revert Hj Ej'. generalize (N.of_nat m). intros j Hj Ej.
  unfold pc_first. apply (forM_panic (fun '(h', _) => lenN h' = lenN h) _ j).
  - reflexivity.
  - intros [h' data'] i Hi Hh. clear Hi.
    apply bind_cases; [apply idx_cases|]. intros e _.
    destruct (incr_cases h' e) as [E|(h2 & E & El)]; rewrite E; cbn [bind]; [auto|].
    apply bind_cases; [unfold sub; destruct (_ <=? _); eauto|]. intros sh _.
    apply bind_cases.
    { apply (cases_weak (fun _ => True)). unfold seq_bit. apply bind_cases; [apply idx_cases|]. intros x _.
      apply bind_cases; [unfold shr64_chk; destruct (_ <? _); eauto|]. eauto. }
    intros b _. apply bind_cases; [apply idx_cases|]. intros d _. apply bind_cases; [apply bv_set_unchecked_cases|].
    intros d' _. apply bind_cases; [eapply cases_weak, set_idx_cases|]. intros. right. eexists. split; [reflexivity|]. congruence.
  - apply In_range. lia.
  - intros [h' data'] Hh. rewrite (idx_ok 0) by auto. rewrite Ej. cbn [bind]. destruct (incr_cases h' bad) as [E|(h2 & E & El)]; rewrite E; cbn [bind]; [auto|].
    destruct Hb as [Hb| ->]; [|reflexivity].
    unfold incr, idx in E. destruct (N.ltb_spec bad (lenN h')); [lia|discriminate].
Qed.

(** ** C70: accepted arguments. *)
(** Sorting construction from a slice: at most 64 bits. *)
Theorem C70_slice sequence k :
  (k <= 64 -> exists w, wm_from_slice sequence k = Ok w /\ wm_bits w = k) /\ (64 < k -> wm_from_slice sequence k = Panic).
Proof.
  split; intros Hk.
  - destruct (N.eq_dec k 0) as [->|H0]; [now exists []|].
    destruct (C32_from_slice sequence k) as (w & E & Hb & _); [lia|auto|]. exists w. split; [auto|]. now apply wm_built_small in Hb.
  - unfold wm_from_slice. destruct (N.leb_spec k 64); [lia|reflexivity].
Qed.
(** Counting construction from a slice: fewer than 64 bits, every element fits, and at least one bit
    unless there is no element. It gives the same matrix then. *)
Theorem C70_slice_pc sequence k :
  (k < 64 /\ Forall (fun x => x < 2 ^ k) sequence /\ (k = 0 -> sequence = []) ->
   exists w, wm_from_slice_pc sequence k = Ok w /\ wm_from_slice sequence k = Ok w) /\
  (64 <= k \/ Exists (fun x => 2 ^ k <= x) sequence \/ (k = 0 /\ sequence <> []) -> wm_from_slice_pc sequence k = Panic).
Proof.
  split.
  - intros (H1 & H2 & H3). destruct (N.eq_dec k 0) as [->|H0].
    + rewrite H3 by auto. exists []. vm_compute. auto.
    + apply C33_slice; auto; lia.
  - intros Hbad. unfold wm_from_slice_pc. destruct (N.leb_spec k 64) as [Hk|Hk]; [|reflexivity]. cbn [assert bind].
    unfold prefix_counting. unfold shl64_chk. destruct (N.ltb_spec k 64) as [Hk'|Hk']; [|reflexivity]. cbn [bind].
    assert (Es : shl64 1 k = 2 ^ k).
    { unfold shl64. rewrite N.shiftl_1_l. apply N.mod_small. change U64 with (2 ^ 64). apply N.pow_lt_mono_r; lia. }
    rewrite Es. destruct Hbad as [Hb|[Hb|[-> Hb]]]; [lia| |].
    + apply Exists_exists in Hb as (x & Hx & Hl). rewrite (pc_first_panics sequence k _ _ x); auto.
      left. now rewrite lenN_replicate.
    + destruct sequence as [|x s]; [congruence|]. rewrite (pc_first_panics (x :: s) 0 _ _ x); auto. now left.
Qed.
(** From a bit vector: the width divides the length, and is not zero; the counting construction needs
    fewer than 64 bits. *)
Theorem C70_bit_vec bv k : wf bv ->
  (k <> 0 /\ lenN (bits bv) mod k = 0 -> exists w, wm_from_bit_vec bv k = Ok w /\ wm_bits w = k) /\
  (k = 0 \/ lenN (bits bv) mod k <> 0 -> wm_from_bit_vec bv k = Panic).
Proof.
  intros H. split.
  - intros [H0 Hm]. destruct (C32_from_bit_vec bv k) as (w & E & Hb & _); [auto|lia|auto|]. exists w. split; [auto|]. now apply wm_built_small in Hb.
  - unfold wm_from_bit_vec. rewrite lenN_bits. intros [->|Hm]; [reflexivity|]. destruct (N.eqb_spec k 0); [reflexivity|]. cbn [negb assert bind].
    destruct (N.eqb_spec (blen bv mod k) 0); [lia|reflexivity].
Qed.
Theorem C70_bit_vec_pc bv k : wf bv ->
  (k <> 0 /\ k < 64 /\ lenN (bits bv) mod k = 0 -> exists w, wm_from_bit_vec_pc bv k = Ok w /\ wm_from_bit_vec bv k = Ok w) /\
  (k = 0 \/ 64 <= k \/ lenN (bits bv) mod k <> 0 -> wm_from_bit_vec_pc bv k = Panic).
Proof.
  intros H. split.
  - intros (H0 & Hk & Hm). apply C33_bit_vec; auto; lia.
  - unfold wm_from_bit_vec_pc. rewrite lenN_bits. intros Hbad. destruct (N.eqb_spec k 0); [reflexivity|]. cbn [negb assert bind].
    destruct (N.eqb_spec (blen bv mod k) 0); [|reflexivity]. cbn [assert bind]. destruct (N.leb_spec k 64); [|reflexivity]. cbn [assert bind].
    unfold prefix_counting, shl64_chk. destruct (N.ltb_spec k 64); [|reflexivity]. exfalso. lia.
Qed.
Example C70_ex :
  wm_from_slice_pc [3; 8; 1] 3 = Panic /\ wm_from_slice_pc [3; 7; 1] 3 = wm_from_slice [3; 7; 1] 3 /\ wm_from_slice_pc [] 64 = Panic /\
  wm_from_slice_pc [0] 0 = Panic /\ wm_from_slice [5] 65 = Panic /\ wm_from_bit_vec (mkbv [5] 7) 3 = Panic /\ wm_from_bit_vec_pc (mkbv [5] 64) 64 = Panic.
Proof. vm_compute. auto 10. Qed.

(** ** C71: no bits per element. The elements are lost: the matrix is empty, whatever the sequence, and
    the queries answer as for the empty sequence (rank on the empty prefix is 0). *)
Theorem C71_no_bits sequence : wm_from_slice sequence 0 = Ok [] /\ wm_len [] = 0 /\ wm_is_empty [] = true /\ wm_bits [] = 0.
Proof. auto. Qed.
Theorem C71_access i : wm_get_value [] i = Ok None /\ wm_get_u64 [] i = Ok None /\ wm_get_sorted [] i = Ok None /\ wm_get_sorted_u64 [] i = Ok None.
Proof. unfold wm_get_sorted, wm_get_sorted_u64. cbn [wm_len]. destruct (N.leb_spec 0 i); [auto|lia]. Qed.
Theorem C71_rank i a b s v :
  wm_rank [] i s = Ok (if (i =? 0) && (blen s =? 0) then Some 0 else None) /\
  wm_rank_u64 [] i v = Ok (if i =? 0 then Some 0 else None) /\
  wm_rank_range [] a b s = Ok None /\ wm_rank_range_u64 [] a b v = Ok None /\
  wm_rank_offset [] a b s = Ok None /\ wm_rank_offset_u64 [] a b v = Ok None.
Proof.
  unfold wm_rank, wm_rank_u64, wm_rank_range, wm_rank_range_u64, wm_rank_offset, wm_rank_offset_u64. cbn [wm_len].
  destruct (N.leb_spec 0 a); [|lia]. rewrite !orb_true_r. cbn [orb].
  split; [|split; [|now destruct (b <? a)]].
  - destruct (N.eqb_spec i 0) as [->|Hi]; [|now destruct (N.ltb_spec 0 i); [|lia]].
    cbn [N.ltb N.compare orb andb]. change (wm_bits []) with 0. now destruct (blen s =? 0).
  - destruct (N.eqb_spec i 0) as [->|Hi]; [reflexivity|]. destruct (N.ltb_spec 0 i); [reflexivity|lia].
Qed.
Theorem C71_select r a s v : r < 2 ^ 64 ->
  wm_select [] r s = Ok None /\ wm_select_u64 [] r v = Ok None /\
  wm_select_offset [] a r s = Ok None /\ wm_select_offset_u64 [] a r v = Ok None.
Proof.
  intros Hr. unfold wm_select, wm_select_u64, wm_select_offset, wm_select_offset_u64. cbn [wm_len].
  destruct (N.leb_spec 0 a); [|lia]. cbn [orb].
  assert (Ea : add64 0 r = Ok r) by (unfold add64; rewrite N.add_0_l; destruct (N.ltb_spec r U64) as [|Hc]; [reflexivity|unfold U64 in Hc; lia]).
  assert (Ef : wm_found [] r = None) by (unfold wm_found; cbn [wm_len]; destruct (N.ltb_spec r 0); [lia|reflexivity]).
  unfold wm_select_unchecked, wm_select_u64_unchecked, wm_select_offset_unchecked, wm_select_offset_u64_unchecked, wm_select_loop.
  cbn [wm_start_loop bind wm_up_loop]. rewrite Ea. cbn [bind wm_up_loop]. rewrite Ef. split; [now destruct (_ =? _)|auto].
Qed.
Theorem C71_order a b k s v :
  wm_quantile [] a b k = Ok None /\ wm_quantile_u64 [] a b k = Ok None /\
  wm_range_min [] a b = Ok None /\ wm_range_max [] a b = Ok None /\ wm_range_median [] a b = Ok None /\
  wm_range_min_u64 [] a b = Ok None /\ wm_range_max_u64 [] a b = Ok None /\ wm_range_median_u64 [] a b = Ok None /\
  wm_predecessor [] a b s = Ok None /\ wm_successor [] a b s = Ok None /\
  wm_predecessor_u64 [] a b v = Ok None /\ wm_successor_u64 [] a b v = Ok None.
Proof.
  assert (Q : forall k, wm_quantile [] a b k = Ok None) by (intros j; unfold wm_quantile; cbn [wm_len]; destruct (N.leb_spec 0 a); [reflexivity|lia]).
  assert (Q64 : forall k, wm_quantile_u64 [] a b k = Ok None) by (intros j; unfold wm_quantile_u64; cbn [wm_len]; destruct (N.leb_spec 0 a); [reflexivity|lia]).
  unfold wm_range_min, wm_range_max, wm_range_median, wm_range_min_u64, wm_range_max_u64, wm_range_median_u64.
  unfold wm_predecessor, wm_successor, wm_predecessor_u64, wm_successor_u64. change (wm_is_empty []) with true. rewrite !orb_true_r. cbn [orb].
  rewrite !Q, !Q64. split; [auto|]. split; [auto|]. split; [auto|].
  destruct (N.ltb_spec a b) as [Hab|Hab]; cbn [negb orb]; [|auto 12].
  unfold sub. destruct (N.leb_spec a b); [|lia]. destruct (N.leb_spec 1 b); [|lia]. cbn [bind].
  destruct (N.leb_spec 1 (b - a)); [|lia]. destruct (N.leb_spec a (b - 1)); [|lia]. cbn [bind]. rewrite !Q, !Q64.
  repeat (split; [first [reflexivity|now destruct (_ || _)]|]); reflexivity.
Qed.
Theorem C71_iter ops : skips_inside true true (@nil bitvec) ops ->
  iter_run (gi_step (wm_get_value [])) (gi_new (wm_iter_len [])) ops = Ok (iter_spec_run [] ops) /\
  iter_run (gi_step (wm_get_sorted [])) (gi_new (wm_iter_len [])) ops = Ok (iter_spec_run [] ops).
Proof.
  intros Hs. split.
  - apply (gi_run_ok [] _ (wm_get_value_unchecked [])); auto; [reflexivity|intros; now destruct i|intros i x Hx; now destruct i].
  - apply (gi_run_ok [] _ (wm_get_sorted_unchecked [])); auto; [reflexivity| |intros i x Hx; now destruct i].
    intros i _. destruct (C71_access i) as (_ & _ & -> & _). now destruct i.
Qed.
Example C71_ex : wm_from_slice [4; 7; 1] 0 = Ok [] /\ wm_rank_u64 [] 0 9 = Ok (Some 0) /\ wm_rank_u64 [] 1 9 = Ok None /\ wm_get_u64 [] 0 = Ok None.
Proof. vm_compute. auto. Qed.
