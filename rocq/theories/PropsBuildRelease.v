(** * C123: release builds of the wavelet constructors and of [pdep]. *)
From Verif Require Import Base Spec BaseFacts WordFacts BitVecModel BitVecProofs BitVecProofs2 RsVecModel RsVecProofs
  IterFacts GenIterModel WaveletModel WaveletProofs WaveletBuild WaveletCount PropsWavelet PropsWaveletBuild PdepModel PropsPdep PropsRelease BuildReleaseModel.

Lemma forM_ext_in {A S} (f g : S -> A -> res S) : forall l s, (forall s x, In x l -> f s x = g s x) -> forM l s f = forM l s g.
Proof.
  induction l as [|x l IH]; intros s H; cbn [forM]; [reflexivity|]. rewrite (H s x) by now left.
  destruct (g s x); cbn [bind]; auto. apply IH. intros; apply H; now right.
Qed.
Lemma seq_bit_same seq e bit : bit < 64 -> seq_bit_rel seq e bit = seq_bit seq e bit.
Proof.
  intros H. unfold seq_bit_rel, seq_bit, shr64_chk. destruct (idx seq e); cbn [bind]; auto.
  rewrite N.mod_small by auto. destruct (N.ltb_spec bit 64); [reflexivity|lia].
Qed.
Lemma ps_fill_same k l1 l2 perm level d : k <= 64 -> level < k -> (forall p b, b < 64 -> l1 p b = l2 p b) -> ps_fill k l1 perm level d = ps_fill k l2 perm level d.
Proof.
  intros Hk Hl H. unfold ps_fill. apply forM_ext_in. intros [z d1] i _. destruct (idx perm i); cbn [bind]; auto.
  rewrite sub_ok by lia. cbn [bind]. now rewrite H by lia.
Qed.
Lemma sorting_same k n l1 l2 : k <= 64 -> (forall p b, b < 64 -> l1 p b = l2 p b) -> permutation_sorting k n l1 = permutation_sorting k n l2.
Proof.
  intros Hk H. unfold permutation_sorting. f_equal. apply forM_ext_in. intros [[ds p] nx] level Hl. apply In_range in Hl.
  now rewrite (ps_fill_same k l1 l2) by (auto; lia).
Qed.
Lemma pc_place_same k n l1 l2 el level b d : k <= 64 -> level < k -> (forall p b, b < 64 -> l1 p b = l2 p b) ->
  pc_place k n l1 el level b d = pc_place k n l2 el level b d.
Proof. intros Hk Hl H. unfold pc_place. apply forM_ext_in. intros [b1 d1] i _. now rewrite H by lia. Qed.

Lemma counting_same k n l1 l2 el : 1 <= k -> k < 64 -> (forall p b, b < 64 -> l1 p b = l2 p b) ->
  prefix_counting_rel k n l1 el = prefix_counting k n l2 el.
Proof.
  intros H1 H2 H. unfold prefix_counting_rel, prefix_counting, shl64_chk. rewrite N.mod_small by auto. destruct (N.ltb_spec k 64); [|lia]. cbn [bind].
  assert (E : forall h d, pc_first_rel k n l1 el h d = pc_first k n l2 el h d).
  { intros h d. unfold pc_first_rel, pc_first. apply forM_ext_in. intros [h1 d1] i _. destruct (el i); cbn [bind]; auto. destruct (incr h1 a); cbn [bind]; auto.
    rewrite sub_ok by auto. cbn [bind]. rewrite wsub_ge by lia. now rewrite H by lia. }
  rewrite E. destruct (pc_first _ _ _ _ _ _) as [[h d]| |]; cbn [bind]; auto. f_equal. apply forM_ext_in.
  intros [[h1 b1] d1] level Hl. apply in_rev, In_range in Hl.
  destruct (pc_combine level h1); cbn [bind]; auto. destruct (pc_borders _ _ _); cbn [bind]; auto. destruct (idx d1 level); cbn [bind]; auto.
  now rewrite (pc_place_same k n l1 l2) by (auto; lia).
Qed.
Lemma forM_cases {A S} (P : S -> Prop) (f : S -> A -> res S) : forall l s, P s ->
  (forall s x, P s -> f s x = Panic \/ exists s', f s x = Ok s' /\ P s') -> forM l s f = Panic \/ exists s', forM l s f = Ok s' /\ P s'.
Proof.
  induction l as [|x l IH]; intros s Hs Hf; cbn [forM]; [eauto|].
  destruct (Hf s x Hs) as [E|(s' & E & Hs')]; rewrite E; cbn [bind]; auto.
Qed.
Definition settled {A} (r : res A) : Prop := r = Panic \/ exists x, r = Ok x.
Lemma combine_panics level h : lenN h = 1 -> pc_combine level h = Panic.
Proof.
  intros Hh. unfold pc_combine. rewrite range_cons by (pose proof (N.pow_nonzero 2 level); lia). cbn [forM].
  rewrite (idx_ok 0) by lia. cbn [bind]. rewrite idx_panic by lia. reflexivity.
Qed.
Lemma levels_panic {S B} k (s : S) f (g : S -> res B) : 1 < k -> (forall level, f s level = Panic) -> (let* x := forM (rev (range 1 k)) s f in g x) = Panic.
Proof.
  intros Hk Hf. replace k with (k - 1 + 1) by lia. rewrite range_succ by lia. rewrite rev_app_distr. cbn [rev app forM]. now rewrite Hf.
Qed.
(** [1 << 64] is 1, so the histogram has one entry, and combining it fails. *)
Lemma counting_64 n look el : (forall i b, settled (look i b)) -> (forall i, settled (el i)) -> prefix_counting_rel 64 n look el = Panic.
Proof.
  intros Hl He. unfold prefix_counting_rel. change (shl64 1 (64 mod 64)) with 1.
  assert (H : pc_first_rel 64 n look el (replicate 1 0) (replicate 64 (bv_from_zeros n)) = Panic \/
    exists s, pc_first_rel 64 n look el (replicate 1 0) (replicate 64 (bv_from_zeros n)) = Ok s /\ lenN (fst s) = 1).
  { apply forM_cases; [reflexivity|]. intros [h d] i Hh. cbn [fst] in Hh.
    apply bind_cases; [apply He|]. intros e _. destruct (incr_cases h e) as [E|(h2 & E & El)]; rewrite E; cbn [bind]; [auto|].
    apply bind_cases; [apply Hl|]. intros b _. apply bind_cases; [apply idx_cases|]. intros x _. apply bind_cases; [apply bv_set_unchecked_cases|].
    intros y _. apply bind_cases; [eapply cases_weak, set_idx_cases|]. intros z _. right. eexists. split; [reflexivity|]. cbn [fst]. lia. }
  destruct H as [E|([h d] & E & Hh)]; rewrite E; cbn [bind]; [reflexivity|]. cbn [fst] in Hh.
  apply levels_panic; [reflexivity|]. intros level. now rewrite combine_panics.
Qed.
Lemma counting_0 n look el : n <> 0 -> (forall i b, settled (look i b)) -> (forall i, settled (el i)) -> prefix_counting_rel 0 n look el = Panic.
Proof.
  intros Hn Hl He. unfold prefix_counting_rel, pc_first_rel. rewrite range_cons by lia. cbn [forM].
  destruct (He 0) as [E|(e & E)]; rewrite E; cbn [bind]; [reflexivity|].
  destruct (incr_cases (replicate (shl64 1 (0 mod 64)) 0) e) as [E2|(h & E2 & _)]; rewrite E2; cbn [bind]; [reflexivity|].
  destruct (Hl 0 (wrapping_sub 0 1)) as [E3|(b & E3)]; rewrite E3; cbn [bind]; [reflexivity|]. reflexivity.
Qed.

(** C123: the constructors do the same in a release build. *)
Theorem C123_slice sequence k : wm_from_slice_rel sequence k = wm_from_slice sequence k.
Proof.
  unfold wm_from_slice_rel, wm_from_slice. destruct (N.leb_spec k 64); [|reflexivity]. cbn [assert bind].
  apply sorting_same; auto. intros. now apply seq_bit_same.
Qed.
Theorem C123_slice_pc sequence k : wm_from_slice_pc_rel sequence k = wm_from_slice_pc sequence k.
Proof.
  assert (Hl : forall i b, settled (seq_bit_rel sequence i b)) by (intros i b; unfold seq_bit_rel; destruct (idx_cases sequence i) as [E|[x E]]; rewrite E; cbn [bind]; [now left|right; eauto]).
  assert (He : forall i, settled (idx sequence i)) by (intros i; apply idx_cases).
  destruct (N.lt_trichotomy k 64) as [Hk|[->|Hk]].
  - destruct (N.eq_dec k 0) as [->|H0].
    + destruct sequence as [|x s]; [reflexivity|]. rewrite (proj2 (C70_slice_pc (x :: s) 0)) by (right; right; split; [reflexivity|discriminate]).
      apply counting_0; auto. rewrite lenN_cons'. lia.
    + unfold wm_from_slice_pc_rel, wm_from_slice_pc. destruct (N.leb_spec k 64); [|lia]. cbn [assert bind].
      apply counting_same; auto; [lia|]. intros. now apply seq_bit_same.
  - rewrite (proj2 (C70_slice_pc sequence 64)) by (left; lia). now apply counting_64.
  - unfold wm_from_slice_pc_rel, wm_from_slice_pc. destruct (N.leb_spec k 64); [lia|reflexivity].
Qed.
Theorem C123_bit_vec_pc bv k : wm_from_bit_vec_pc_rel bv k = wm_from_bit_vec_pc bv k.
Proof.
  unfold wm_from_bit_vec_pc_rel, wm_from_bit_vec_pc. destruct (N.eqb_spec k 0); [reflexivity|]. cbn [negb assert bind].
  destruct (N.eqb_spec (blen bv mod k) 0); [|reflexivity]. cbn [assert bind]. destruct (N.leb_spec k 64) as [Hk|]; [|reflexivity]. cbn [assert bind].
  destruct (N.eq_dec k 64) as [->|Hk2].
  - rewrite counting_64; [reflexivity| |].
    + intros i b. unfold bv_bit, bv_get_unchecked. destruct (idx_cases (bdata bv) ((i * 64 + b) / 64)) as [E|[x E]]; rewrite E; cbn [bind]; [now left|right; eauto].
    + intros i. unfold bv_element, bv_get_bits_unchecked, limbs_get_bits_unchecked. destruct (N.leb_spec 64 64); [|lia]. cbn [assert bind].
      destruct (idx_cases (bdata bv) (i * 64 / 64)) as [E|[x E]]; rewrite E; cbn [bind]; [now left|].
      rewrite N.mod_mul by lia. right. eexists. reflexivity.
  - apply counting_same; auto; lia.
Qed.
Lemma pdepw_loop_rel_same fuel w value mask bb r : 0 < w -> mask < 2 ^ w -> pdepw_loop_rel fuel w value mask bb r = pdepw_loop fuel w false value mask bb r.
Proof.
  intros Hw. revert mask bb r. induction fuel as [|fuel IH]; intros mask bb r Hm; cbn [pdepw_loop_rel pdepw_loop]; destruct (N.eqb_spec mask 0) as [E|E]; auto.
  cbn [andb bind]. replace ((mask + 2 ^ w - 1) mod 2 ^ w) with (mask - 1).
  - apply IH. now apply land_lt_w.
  - replace (mask + 2 ^ w - 1) with (mask - 1 + 1 * 2 ^ w) by lia. rewrite N.mod_add by (apply N.pow_nonzero; lia). symmetry. apply N.mod_small. lia.
Qed.
(** The software [pdep] of signed types does what is documented, for negative masks as well. *)
Theorem C123_pdep w value mask : 0 < w -> mask < 2 ^ w ->
  exists r, pdepw_rel w value mask = Ok r /\ deposited w value mask r.
Proof.
  intros Hw Hm. unfold pdepw_rel. rewrite pdepw_loop_rel_same by auto. destruct (C98_pdep w value mask Hw Hm) as (r & E & _ & H). eauto.
Qed.
Example C123_ex : wm_from_slice_pc_rel [3; 1; 2] 2 = wm_from_slice [3; 1; 2] 2 /\ (exists w, wm_from_slice_rel [3; 1; 2] 2 = Ok w) /\
  wm_from_slice_pc_rel [0; 0] 0 = Panic /\
  pdepw_rel 8 5 148 = Ok 132 /\ pdepw_rel 8 1 255 = Ok 1 /\ pdepw 8 true 5 148 = Panic.
Proof. vm_compute. repeat split; try reflexivity; eexists; reflexivity. Qed.
