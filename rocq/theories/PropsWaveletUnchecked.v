(** * C102-C104: what the unchecked wavelet matrix queries do with arguments out of range. *)
From Coq Require Import Permutation Sorting.Sorted.
From Verif Require Import Base Spec BaseFacts WordFacts BitVecModel BitVecProofs BitVecProofs2 RsVecModel RsVecProofs RsEqProofs PropsRsVec
  WaveletModel WaveletProofs WaveletOrder WaveletBuild WaveletCount WaveletQuery WaveletAnswer PropsWavelet PropsRelease.

(** ** Boundaries beyond the end act like the end. *)
Lemma takeN_min {A} (l : list A) p : takeN (N.min p (lenN l)) l = takeN p l.
Proof.
  destruct (N.le_ge_cases p (lenN l)) as [L|L]; [now rewrite N.min_l|]. rewrite N.min_r by auto.
  unfold takeN, lenN in *. rewrite Nat2N.id, !firstn_all2 by lia. reflexivity.
Qed.
Lemma down_min d B bit p : level_ok d B -> wm_down d bit (N.min p (lenN B)) = wm_down d bit p.
Proof.
  intros L. unfold wm_down. rewrite !(lv_r0 _ _ L), !(lv_r1 _ _ L). unfold rank_spec. rewrite takeN_min. reflexivity.
Qed.
Lemma rank_loop_min w l k rd a b : wmok w l k ->
  wm_rank_loop rd w 0 a b = wm_rank_loop rd w 0 (N.min a (lenN l)) (N.min b (lenN l)).
Proof.
  intros H. pose proof (wo_pos _ _ _ H). pose proof (wo_bits _ _ _ H) as Hw. pose proof (wo_enc _ _ _ H) as He.
  destruct w as [|d w]; [cbn in Hw; lia|]. destruct He as (_ & L & _). cbn [wm_rank_loop].
  destruct (rd 0) as [bit| |]; cbn [bind]; auto.
  pose proof (down_min d _ bit a L) as Ea. pose proof (down_min d _ bit b L) as Eb. rewrite !lenN_map in Ea, Eb.
  now rewrite Ea, Eb.
Qed.
Lemma start_loop_min w l k rd a : wmok w l k ->
  wm_start_loop rd w 0 a = wm_start_loop rd w 0 (N.min a (lenN l)).
Proof.
  intros H. pose proof (wo_pos _ _ _ H). pose proof (wo_bits _ _ _ H) as Hw. pose proof (wo_enc _ _ _ H) as He.
  destruct w as [|d w]; [cbn in Hw; lia|]. destruct He as (_ & L & _). cbn [wm_start_loop].
  destruct (rd 0) as [bit| |]; cbn [bind]; auto.
  pose proof (down_min d _ bit a L) as Ea. rewrite !lenN_map in Ea. now rewrite Ea.
Qed.

(** ** C102 *)
(** The occurrences of [s] from [a] to [b], both cut at the end; if the range is inverted and the
    symbol occurs between its ends, the subtraction underflows. *)
Definition rank_outcome (l : list N) (a b s : N) : res N :=
  let a := N.min a (lenN l) in
  let b := N.min b (lenN l) in
  if a <=? b then Ok (occurrences s (sliceN a (b - a) l))
  else if occurrences s (sliceN b (a - b) l) =? 0 then Ok 0 else Panic.

Theorem C102_rank w l k a b : wm_built w l k ->
  (forall s, wf s -> lenN (bits s) = k ->
     wm_rank_range_unchecked w a b s = rank_outcome l a b (value (bits s)) /\
     wm_rank_offset_unchecked w a b s = rank_outcome l a b (value (bits s)) /\
     wm_rank_unchecked w b s = rank_outcome l 0 b (value (bits s))) /\
  (forall s, k <= 64 -> s < 2 ^ 64 ->
     wm_rank_range_u64_unchecked w a b s = rank_outcome l a b (s mod 2 ^ k) /\
     wm_rank_offset_u64_unchecked w a b s = rank_outcome l a b (s mod 2 ^ k) /\
     wm_rank_u64_unchecked w b s = rank_outcome l 0 b (s mod 2 ^ k)).
Proof.
  intros Hb. pose proof (wm_built_ok _ _ _ Hb) as G.
  assert (A1 : forall a b s, wf s -> lenN (bits s) = k ->
    wm_rank_range_unchecked w a b s = rank_outcome l a b (value (bits s))).
  { intros a0 b0 s Hs Hk. unfold wm_rank_range_unchecked, rank_outcome. rewrite (rank_loop_min w l k) by auto.
    destruct (N.leb_spec (N.min a0 (lenN l)) (N.min b0 (lenN l))) as [L|L].
    - apply (rank_bv_any w l k Hb); auto. lia.
    - apply rank_loop_swap. apply (rank_bv_any w l k Hb); auto; lia. }
  assert (A2 : forall a b s, k <= 64 ->
    wm_rank_range_u64_unchecked w a b s = rank_outcome l a b (s mod 2 ^ k)).
  { intros a0 b0 s Hk. unfold wm_rank_range_u64_unchecked, rank_outcome. rewrite (rank_loop_min w l k) by auto.
    destruct (N.leb_spec (N.min a0 (lenN l)) (N.min b0 (lenN l))) as [L|L].
    - apply (rank_u64_any w l k Hb); auto. lia.
    - apply rank_loop_swap. apply (rank_u64_any w l k Hb); auto; lia. }
  split.
  - intros s Hs Hk. unfold wm_rank_offset_unchecked, wm_rank_unchecked. rewrite !A1 by auto. auto.
  - intros s Hk _. unfold wm_rank_offset_u64_unchecked, wm_rank_u64_unchecked. rewrite !A2 by auto. auto.
Qed.

Lemma select_loop_le w l k rd o r p : wmok w l k -> wm_select_loop rd w o r = Ok p -> p <= lenN l.
Proof.
  intros H. pose proof (wo_pos _ _ _ H). pose proof (wo_bits _ _ _ H) as Hw. pose proof (wo_enc _ _ _ H) as He.
  destruct w as [|d w]; [cbn in Hw; lia|]. destruct He as (_ & L & _). unfold wm_select_loop.
  destruct (wm_start_loop rd (d :: w) 0 o) as [st| |]; cbn [bind]; try discriminate.
  destruct (add64 st r) as [e| |]; cbn [bind wm_up_loop]; try discriminate.
  destruct (wm_up_loop rd w (0 + 1) e) as [e'| |]; cbn [bind]; try discriminate.
  destruct (rd 0) as [bit| |]; cbn [bind]; try discriminate.
  assert (Hle : forall b q, select_spec b (map hdb (map (word_of k) l)) q <= lenN l).
  { intros b q. etransitivity; [apply select_spec_le|]. rewrite !lenN_map. reflexivity. }
  destruct (bit =? 0).
  - rewrite (lv_s0 _ _ L). intros E. injection E as <-. apply Hle.
  - destruct (sub e' (rrank0 d)) as [q| |]; cbn [bind]; try discriminate.
    rewrite (lv_s1 _ _ L). intros E. injection E as <-. apply Hle.
Qed.

(** [select]: the position of the occurrence, or the length if there is none; the sum of the start
    and the rank may overflow. *)
Theorem C102_select w l k o r : wm_built w l k ->
  (forall s, wf s -> lenN (bits s) = k ->
     (exists p, wm_select_offset_unchecked w o r s = Ok p /\
        match getN (occurrence_positions (value (bits s)) o l) r with Some q => p = q | None => p = lenN l end) \/
     (wm_select_offset_unchecked w o r s = Panic /\ 2 ^ 64 <= lenN l + r)) /\
  (forall s, k <= 64 -> s < 2 ^ 64 ->
     (exists p, wm_select_offset_u64_unchecked w o r s = Ok p /\
        match getN (occurrence_positions (s mod 2 ^ k) o l) r with Some q => p = q | None => p = lenN l end) \/
     (wm_select_offset_u64_unchecked w o r s = Panic /\ 2 ^ 64 <= lenN l + r)).
Proof.
  intros Hb. pose proof (wm_built_ok _ _ _ Hb) as G.
  assert (A : forall rd s, reads rd 0 (word_of k s) ->
     (exists p, wm_select_loop rd w o r = Ok p /\
        match getN (occurrence_positions (s mod 2 ^ k) o l) r with Some q => p = q | None => p = lenN l end) \/
     (wm_select_loop rd w o r = Panic /\ 2 ^ 64 <= lenN l + r)).
  { intros rd s Hr.
    assert (E : wm_select_loop rd w o r = wm_select_loop rd w (N.min o (lenN l)) r).
    { unfold wm_select_loop. now rewrite (start_loop_min w l k). }
    rewrite E. assert (Eo : occurrence_positions (s mod 2 ^ k) o l = occs l (s mod 2 ^ k) (N.min o (lenN l))).
    { unfold occurrence_positions, occs. apply filter_ext_in. intros p Hp. apply In_range in Hp. f_equal.
      destruct (N.leb_spec o p), (N.leb_spec (N.min o (lenN l)) p); auto; lia. }
    rewrite Eo. destruct (select_any w l k G rd s (N.min o (lenN l)) r Hr ltac:(lia)) as [(p & Ep & Hp)|[Ep Ho]].
    - left. exists p. split; auto. unfold wm_found in Hp. rewrite (wm_len_ok _ _ _ G) in Hp. rewrite <- Hp.
      pose proof (select_loop_le w l k rd _ r p G Ep). destruct (N.ltb_spec p (lenN l)); auto. lia.
    - right. split; auto. }
  split.
  - intros s Hs Hk. unfold wm_select_offset_unchecked. rewrite lenN_bits in Hk.
    pose proof (A (rd_bv w s) (value (bits s))) as A'. rewrite value_mod in A' by (rewrite lenN_bits; auto).
    apply A'. now apply (rd_bv_reads w l).
  - intros s Hk _. apply (A (rd_u64 w s) s). now apply (rd_u64_reads w l).
Qed.

Example C102_ex :
  wm_rank_range_u64_unchecked ex_wm 3 100 5 = Ok 3 /\ wm_rank_range_u64_unchecked ex_wm 100 3 5 = Panic /\
  wm_rank_range_u64_unchecked ex_wm 100 3 6 = Ok 0 /\ wm_select_offset_u64_unchecked ex_wm 100 0 5 = Ok 8 /\
  wm_rank_unchecked ex_wm 1000 (bv_of 3 5) = Ok 3.
Proof. vm_compute. auto 10. Qed.

(** ** Reading an element beyond the end. *)
Definition padded (d : rsvec) : Prop := exists bv, wf bv /\ zero_tail bv /\ rs_from_bit_vec bv = Ok d.
Lemma sorting_padded k n B look w : looks k n B look -> permutation_sorting k n look = Ok w -> Forall padded w.
Proof.
  intros Hl E. destruct (sorting_enc k n B look Hl) as (datas & w' & E' & _ & Em & _ & Hlv & _).
  rewrite E in E'. injection E' as <-.
  assert (HD : Forall (fun bv => wf bv /\ zero_tail bv) datas).
  { apply Forall_forall. intros bv Hin. destruct (In_nth _ _ bv_new Hin) as (i & Hi & <-).
    destruct (Hlv i Hi) as (H1 & H2 & _). auto. }
  clear -Em HD. revert w Em. induction HD as [|bv datas [H1 H2] HD IH]; intros w Em; cbn [mapM] in Em.
  - injection Em as <-. constructor.
  - destruct (rs_from_bit_vec bv) as [d| |] eqn:Ed; cbn [bind] in Em; try discriminate.
    destruct (mapM rs_from_bit_vec datas) as [ds| |]; cbn [bind] in Em; try discriminate.
    injection Em as <-. constructor; [now exists bv|]. now apply IH.
Qed.
Lemma built_padded w l k : wm_built w l k -> Forall padded w.
Proof.
  assert (S : forall seq k w, wm_from_slice seq k = Ok w -> Forall padded w).
  { intros seq k0 w0. unfold wm_from_slice. destruct (N.leb_spec k0 64); cbn [assert bind]; [|discriminate].
    apply sorting_padded with (B := fun p j => N.testbit (nthN 0 seq p) j). now apply seq_looks. }
  assert (V : forall bv k w, wf bv -> wm_from_bit_vec bv k = Ok w -> Forall padded w).
  { intros bv k0 w0 Hbv E. destruct (from_bit_vec_pre _ _ _ E) as [H1 Hm]. revert E. unfold wm_from_bit_vec.
    destruct (N.eqb_spec k0 0); [lia|]. cbn [negb assert bind]. rewrite Hm. cbn [N.eqb assert bind].
    apply sorting_padded with (B := fun p j => bit_at (bdata bv) (p * k0 + j)). now apply bv_looks. }
  intros [seq k' w' H1 E|bv k' w' H E|seq k' w' H1 H2 Hs E|bv k' w' H H2 E]; clear w l k.
  - now apply S in E.
  - now apply V in E.
  - rewrite from_slice_pc_eq in E by auto. now apply S in E.
  - destruct (from_bit_vec_pc_pre _ _ _ E) as [H1 Hm]. rewrite from_bit_vec_pc_eq in E by auto. now apply V in E.
Qed.
Lemma padded_get d p : padded d -> rlen d <= p ->
  rs_get_unchecked d p = if p <? 64 * ((rlen d + 63) / 64) then Ok 0 else Panic.
Proof.
  intros (bv & H1 & H2 & E) Hp. pose proof (built bv d H1 E) as G. unfold rs_get_unchecked.
  rewrite (good_data _ _ G). rewrite (good_len _ _ G) in *. destruct H1 as [H1 _].
  destruct (N.ltb_spec p (64 * ((blen bv + 63) / 64))) as [L|L].
  - rewrite (idx_ok 0) by (rewrite H1; dlia). cbn [bind]. rewrite land_1, N.shiftr_spec, N.add_0_l by lia.
    specialize (H2 p Hp). unfold bit_at in H2. now rewrite H2.
  - rewrite idx_panic; [reflexivity|]. rewrite H1. dlia.
Qed.

(** The bits read beyond the end of the words [S] on [m] levels. *)
Fixpoint out_word (m : nat) (S : list word) : word :=
  match m with
  | O => []
  | Datatypes.S m => false :: match sel true S with [] => out_word m (sel false S) | v :: _ => v end
  end.
Lemma reconstruct_out {T} (target : N -> T -> res T) ds : forall S p t, enc ds S -> Forall padded ds ->
  lenN S <= p -> p < 64 * ((lenN S + 63) / 64) ->
  wm_reconstruct target ds p t = forM (out_word (length ds) S) t (fun t b => target (bitN b) t).
Proof.
  induction ds as [|d ds IH]; intros S p t He Hp H1 H2; cbn [wm_reconstruct enc length out_word] in *; [reflexivity|].
  destruct He as (Hn & L & He). inversion Hp as [|? ? Hd Hds]; subst.
  assert (El : rlen d = lenN S) by (rewrite (lv_len _ _ L); apply lenN_map).
  rewrite padded_get by (auto; lia). rewrite El. destruct (N.ltb_spec p (64 * ((lenN S + 63) / 64))); [|lia].
  cbn [bind forM]. change (bitN false) with 0. destruct (target 0 t) as [t'| |]; cbn [bind]; auto.
  cbn [N.eqb]. rewrite (lv_r0 _ _ L). cbn [bind].
  assert (Er : rank_spec false (map hdb S) p = lenN (sel false S)).
  { rewrite <- count_sel. unfold rank_spec. rewrite <- takeN_min, N.min_r by (rewrite lenN_map; auto).
    f_equal. unfold takeN, lenN. now rewrite Nat2N.id, firstn_all. }
  rewrite Er. pose proof (lenN_sel_split S) as Hsp. unfold part in He.
  destruct (sel true S) as [|v r].
  - rewrite app_nil_r in He. change (lenN (@nil word)) with 0 in Hsp. apply IH; auto; [lia|].
    replace (lenN (sel false S)) with (lenN S) by lia. lia.
  - apply (reconstruct_ok target ds (sel false S) v r t' He).
Qed.
Lemma reconstruct_far {T} (target : N -> T -> res T) d ds S p t : enc (d :: ds) S -> padded d ->
  64 * ((lenN S + 63) / 64) <= p -> wm_reconstruct target (d :: ds) p t = Panic.
Proof.
  intros He Hd Hp. destruct He as (_ & L & _). cbn [wm_reconstruct].
  assert (El : rlen d = lenN S) by (rewrite (lv_len _ _ L); apply lenN_map).
  rewrite padded_get by (auto; rewrite El; dlia). rewrite El.
  destruct (N.ltb_spec p (64 * ((lenN S + 63) / 64))); [lia|reflexivity].
Qed.

(** The number they stand for: the first element with the highest occurring bit, without that bit. *)
Definition beyond (l : list N) (r : N) : Prop :=
  ((forall y, In y l -> y = 0) /\ r = 0) \/
  exists j pre x post, l = pre ++ x :: post /\ 2 ^ j <= x /\ r = x - 2 ^ j /\
    (forall y, In y l -> y < 2 ^ (j + 1)) /\ (forall y, In y pre -> y < 2 ^ j).

Lemma sel_true_nil S : Forall (fun w => w <> []) S -> sel true S = [] -> S = map (cons false) (sel false S).
Proof.
  induction 1 as [|x S Hx HS IH]; intros E; [reflexivity|]. rewrite sel_cons in *. destruct x as [|b x]; [congruence|].
  cbn [hdb hd tl] in *. destruct b; cbn [Bool.eqb] in *; [discriminate|]. cbn [map]. now rewrite <- IH.
Qed.
Lemma mval_sel_false S : map mval (map (cons false) S) = map mval S.
Proof. rewrite map_map. apply map_ext. intros v. reflexivity. Qed.
Lemma out_word_ok m : forall S, uniform (N.of_nat m) S ->
  lenN (out_word m S) = N.of_nat m /\ beyond (map mval S) (mval (out_word m S)).
Proof.
  induction m as [|m IH]; intros S HS.
  - split; [reflexivity|]. left. split; [|reflexivity]. intros y Hy. apply in_map_iff in Hy as (v & <- & Hv).
    unfold uniform in HS. rewrite Forall_forall in HS. specialize (HS v Hv). destruct v; [reflexivity|].
    rewrite lenN_cons' in HS. lia.
  - assert (HS' : uniform (N.of_nat m + 1) S) by (replace (N.of_nat m + 1) with (N.of_nat (Datatypes.S m)) by lia; auto).
    assert (Hne : Forall (fun w => w <> []) S).
    { eapply Forall_impl; [|exact HS']. intros v Hv ->. change (lenN (@nil bool)) with 0 in Hv. lia. }
    cbn [out_word]. destruct (sel true S) as [|v r] eqn:Es.
    + destruct (IH (sel false S) (uniform_sel false _ _ HS')) as [I1 I2]. split; [rewrite lenN_cons'; lia|].
      cbn [mval bitN]. rewrite N.mul_0_l, N.add_0_l. rewrite (sel_true_nil S Hne Es) at 1. rewrite mval_sel_false. exact I2.
    + destruct (sel_split true S [] v r Hne Es) as (A1 & C1 & E & EA).
      assert (Hv : lenN v = N.of_nat m).
      { pose proof (uniform_sel true _ _ HS') as U. rewrite Es in U. now inversion U. }
      split; [rewrite lenN_cons'; lia|]. cbn [mval bitN]. rewrite N.mul_0_l, N.add_0_l.
      right. exists (N.of_nat m), (map mval A1), (mval (true :: v)), (map mval C1).
      split; [rewrite E, map_app; reflexivity|]. cbn [mval bitN]. rewrite Hv, N.mul_1_l.
      split; [lia|]. split; [lia|]. split.
      * intros y Hy. apply in_map_iff in Hy as (u & <- & Hu). unfold uniform in HS'. rewrite Forall_forall in HS'.
        rewrite <- (HS' u Hu). apply mval_lt.
      * intros y Hy. apply in_map_iff in Hy as (u & <- & Hu).
        assert (HA : Forall (fun w => w <> []) A1) by (rewrite E in Hne; now apply Forall_app in Hne as [? _]).
        rewrite (sel_true_nil A1 HA EA) in Hu. apply in_map_iff in Hu as (u' & <- & Hu').
        cbn [mval bitN]. rewrite N.mul_0_l, N.add_0_l.
        assert (U : uniform (N.of_nat m + 1) A1) by (rewrite E in HS'; now apply Forall_app in HS' as [? _]).
        pose proof (uniform_sel false _ _ U) as U'. unfold uniform in U'. rewrite Forall_forall in U'.
        rewrite <- (U' u' Hu'). apply mval_lt.
Qed.

Lemma write_value k q : lenN q = k -> 1 <= k ->
  exists z, forM q (bv_from_zeros k, k - 1) (fun t0 b => let (value, level) := t0 in
    let* value := bv_set_unchecked value level (bitN b) in Ok (value, level - 1)) = Ok (bv_of k (mval q), z).
Proof.
  intros Hq Hk.
  assert (Hgen : forall q p t, lenN p + lenN q = k -> rep_bv k p t ->
    exists t' z, forM q (t, k - 1 - lenN p) (fun t0 b => let (value, level) := t0 in
      let* value := bv_set_unchecked value level (bitN b) in Ok (value, level - 1)) = Ok (t', z) /\ rep_bv k (p ++ q) t').
  { clear q Hq. intros q. induction q as [|b q IH]; intros p t Hlen Hr; cbn [forM].
    - exists t, (k - 1 - lenN p). rewrite app_nil_r. auto.
    - rewrite lenN_cons' in Hlen. destruct (rep_bv_set k b p t Hr) as (t1 & E1 & R1); [lia|]. rewrite E1. cbn [bind].
      destruct (IH (p ++ [b]) t1) as (t' & z & E2 & R2); [rewrite lenN_app'; change (lenN [b]) with 1; lia|auto|].
      rewrite lenN_app' in E2. change (lenN [b]) with 1 in E2.
      replace (k - 1 - (lenN p + 1)) with (k - 1 - lenN p - 1) in E2 by lia. rewrite E2.
      exists t', z. rewrite <- app_assoc in R2. auto. }
  destruct (Hgen q [] (bv_from_zeros k)) as (t' & z & E2 & R2).
  - rewrite Hq. reflexivity.
  - unfold rep_bv. cbn [rev]. rewrite app_nil_r. change (lenN (@nil bool)) with 0. rewrite N.sub_0_r. apply gb_zeros.
  - change (lenN (@nil bool)) with 0 in E2. rewrite N.sub_0_r in E2. exists z. rewrite E2. do 2 f_equal.
    now apply (rep_bv_full k q t').
Qed.
Lemma write_u64 k q : lenN q = k -> k <= 64 ->
  forM q 0 (fun t b => Ok (N.lor (shl64 t 1) (bitN b))) = Ok (mval q).
Proof.
  intros Hq Hk.
  assert (Hgen : forall q p t, lenN p + lenN q = k -> rep_u64 p t ->
    exists t', forM q t (fun t b => Ok (N.lor (shl64 t 1) (bitN b))) = Ok t' /\ rep_u64 (p ++ q) t').
  { clear q Hq. intros q. induction q as [|b q IH]; intros p t Hlen Hr; cbn [forM].
    - exists t. rewrite app_nil_r. auto.
    - rewrite lenN_cons' in Hlen. destruct (wr_u64_ok k b p t Hk Hr) as (t1 & E1 & R1); [lia|].
      unfold wr_u64 in E1. injection E1 as E1. cbn [bind]. rewrite E1.
      destruct (IH (p ++ [b]) t1) as (t' & E2 & R2); [rewrite lenN_app'; change (lenN [b]) with 1; lia|auto|].
      exists t'. rewrite <- app_assoc in R2. auto. }
  destruct (Hgen q [] 0) as (t' & E2 & R2); [rewrite Hq; reflexivity|reflexivity|]. rewrite E2. f_equal. exact R2.
Qed.

(** ** C103 *)
Theorem C103_get w l k i : wm_built w l k -> lenN l <= i ->
  if i <? 64 * ((lenN l + 63) / 64) then
    exists r, beyond l r /\ r < 2 ^ k /\ wm_get_value_unchecked w i = Ok (bv_of k r) /\
      (k <= 64 -> wm_get_u64_unchecked w i = Ok r)
  else wm_get_value_unchecked w i = Panic /\ wm_get_u64_unchecked w i = Panic.
Proof.
  intros Hb Hi. pose proof (wm_built_ok _ _ _ Hb) as H. pose proof (built_padded _ _ _ Hb) as Hpad.
  pose proof (wo_pos _ _ _ H) as Hk. pose proof (wo_bits _ _ _ H) as Hw. pose proof (wo_enc _ _ _ H) as He.
  unfold wm_get_value_unchecked, wm_get_u64_unchecked. rewrite (wm_bits_ok _ _ _ H), (sub_ok k) by lia. cbn [bind].
  assert (El : lenN (map (word_of k) l) = lenN l) by apply lenN_map.
  destruct (N.ltb_spec i (64 * ((lenN l + 63) / 64))) as [L|L].
  - assert (U : uniform (N.of_nat (length w)) (map (word_of k) l)).
    { apply Forall_forall. intros v Hv. apply in_map_iff in Hv as (x & <- & _). rewrite lenN_word_of. symmetry. exact Hw. }
    destruct (out_word_ok (length w) _ U) as [L1 L2]. change (N.of_nat (length w)) with (lenN w) in L1. rewrite Hw in L1.
    assert (Em : map mval (map (word_of k) l) = l).
    { rewrite map_map. rewrite <- (map_id l) at 2. apply map_ext_in. intros x Hx. rewrite mval_word_of. apply N.mod_small.
      pose proof (wo_small _ _ _ H) as Hs. rewrite Forall_forall in Hs. auto. }
    rewrite Em in L2. exists (mval (out_word (length w) (map (word_of k) l))). split; [exact L2|].
    split; [pose proof (mval_lt (out_word (length w) (map (word_of k) l))) as M; rewrite L1 in M; exact M|].
    rewrite !(reconstruct_out _ w (map (word_of k) l)) by (rewrite ?El; auto). split.
    + destruct (write_value k _ L1 Hk) as (z & E). rewrite E. reflexivity.
    + intros Hk64. now apply (write_u64 k).
  - destruct w as [|d w]; [cbn in Hw; lia|]. inversion Hpad; subst.
    rewrite !(reconstruct_far _ d w (map (word_of (lenN (d :: w))) l)) by (rewrite ?El; auto). auto.
Qed.

(** The documentation promises a panic, an empty bit vector or 0. *)
Definition ex_wm63 : wavelet := match wm_from_slice [6; 7; 5] 3 with Ok w => w | _ => [] end.
Theorem C103_refuted : exists sequence k w i, wm_from_slice sequence k = Ok w /\ lenN sequence <= i /\
  wm_get_u64_unchecked w i = Ok 2 /\ wm_get_value_unchecked w i = Ok (bv_of 3 2).
Proof. exists [6; 7; 5], 3, ex_wm63, 5. vm_compute. repeat split; discriminate. Qed.
Example C103_ex : wm_get_u64_unchecked ex_wm63 63 = Ok 2 /\ wm_get_u64_unchecked ex_wm63 64 = Panic /\ beyond [6; 7; 5] 2.
Proof.
  split; [reflexivity|]. split; [reflexivity|]. right. exists 2, [], 6, [7; 5].
  repeat split; try discriminate.
  - intros y Hy. repeat (destruct Hy as [<-|Hy]; [reflexivity|]). destruct Hy.
  - intros y [].
Qed.

(** ** C104 *)
Lemma quantile_over {T} (Rep : word -> T -> Prop) (wr : N -> N -> T -> res T) K
  (Hwr : forall b p t, Rep p t -> lenN p < K -> exists t', wr (bitN b) (lenN p) t = Ok t' /\ Rep (p ++ [b]) t') ds :
  forall p S1 S2 S3 k t, enc ds (S1 ++ S2 ++ S3) -> lenN p + lenN ds = K -> Rep p t -> lenN S2 <= k ->
  exists t', wm_quantile_loop wr ds (lenN p) (lenN S1) (lenN S1 + lenN S2) k t = Ok t' /\
    Rep (p ++ replicate (lenN ds) true) t'.
Proof.
  induction ds as [|d ds IH]; intros p S1 S2 S3 k t H Hp Hr Hk; cbn [wm_quantile_loop enc] in *.
  - exists t. split; [reflexivity|]. cbn. now rewrite app_nil_r.
  - destruct H as (Hn & Hl & H). rewrite lenN_cons' in Hp.
    pose proof (lenN_sel_split S2) as Hs2.
    destruct (rank0_ok2 d S1 S2 S3 Hl) as [-> ->]. cbn [bind].
    rewrite (sub_ok (lenN (sel false S1) + lenN (sel false S2))) by lia. cbn [bind].
    replace (lenN (sel false S1) + lenN (sel false S2) - lenN (sel false S1)) with (lenN (sel false S2)) by lia.
    destruct (N.ltb_spec k (lenN (sel false S2))) as [Hlt|Hge]; [lia|].
    destruct (Hwr true p t Hr) as (t' & Et & Ht); [lia|]. cbn [bitN] in Et. rewrite Et. cbn [bind].
    rewrite (sub_ok k) by lia. cbn [bind].
    destruct (one_bounds d S1 S2 S3 Hl) as (-> & -> & E1 & E2). cbn [bind]. rewrite E1, E2.
    rewrite (part_b true) in H.
    destruct (IH (p ++ [true]) _ _ _ (k - lenN (sel false S2)) t' H) as (t'' & E & HR).
    { rewrite lenN_app'. change (lenN [true]) with 1. lia. }
    { exact Ht. }
    { lia. }
    rewrite lenN_app' in E. change (lenN [true]) with 1 in E. rewrite E. exists t''. split; [reflexivity|].
    rewrite <- app_assoc in HR. rewrite lenN_cons', (replicate_cons (lenN ds + 1)) by lia.
    replace (lenN ds + 1 - 1) with (lenN ds) by lia. exact HR.
Qed.
Lemma mval_ones k : mval (replicate k true) = 2 ^ k - 1.
Proof.
  induction k as [|k IH] using N_ind1; [reflexivity|]. rewrite replicate_cons by lia. cbn [mval bitN].
  replace (k + 1 - 1) with k by lia. rewrite IH, lenN_replicate, N.add_1_r, N.pow_succ_r'.
  pose proof (N.pow_nonzero 2 k ltac:(lia)). lia.
Qed.

(** The [i]-th smallest of a range of at most [i] elements: all ones. *)
Theorem C104_quantile w l k a b i : wm_built w l k ->
  (a < b /\ b <= lenN l -> b - a <= i ->
     wm_quantile_unchecked w a b i = Ok (bv_of k (2 ^ k - 1)) /\
     (k <= 64 -> wm_quantile_u64_unchecked w a b i = Ok (2 ^ k - 1))) /\
  (~ (a < b /\ b <= lenN l) -> wm_quantile_unchecked w a b i = Panic /\ wm_quantile_u64_unchecked w a b i = Panic).
Proof.
  intros Hb. pose proof (wm_built_ok _ _ _ Hb) as H. pose proof (wo_bits _ _ _ H) as Hw. split.
  - intros [H1 H2] Hi. destruct (enc_split w l k H a b) as (S1 & S3 & He & L1 & L2 & L3); [lia|auto|].
    unfold wm_quantile_unchecked, wm_quantile_u64_unchecked. split.
    + rewrite (quant_bv w l k H 0 a b i []); [|apply (rep_bv_new w l k H)|cbn; lia|auto|auto].
      destruct (quantile_over (rep_bv k) (wr_ones w) k (wr_ones_ok w l k H) w [] S1 _ S3 i (bv_from_zeros (wm_bits w)) He)
        as (t' & E & HR); [rewrite Hw; reflexivity|apply (rep_bv_new w l k H)|lia|].
      change (lenN (@nil bool)) with 0 in E. rewrite L1, L2 in E. replace (a + (b - a)) with b in E by lia.
      cbn [N.to_nat skipn]. rewrite E. f_equal. cbn [app] in HR. rewrite Hw in HR.
      rewrite (rep_bv_full k (replicate k true) t') by (auto; apply lenN_replicate). now rewrite mval_ones.
    + intros Hk. rewrite (quant_u64 w l k H 0 a b i [] 0 Hk); [|reflexivity|cbn; lia|auto|auto].
      destruct (quantile_over rep_u64 wr_u64 k (fun b p t => wr_u64_ok k b p t Hk) w [] S1 _ S3 i 0 He)
        as (t' & E & HR); [rewrite Hw; reflexivity|reflexivity|lia|].
      change (lenN (@nil bool)) with 0 in E. rewrite L1, L2 in E. replace (a + (b - a)) with b in E by lia.
      cbn [N.to_nat skipn]. rewrite E. f_equal. cbn [app] in HR. rewrite Hw in HR. unfold rep_u64 in HR.
      now rewrite HR, mval_ones.
  - intros Hn. unfold wm_quantile_unchecked, wm_quantile_u64_unchecked, wm_partial_quantile, wm_partial_quantile_u64.
    rewrite (wm_len_ok _ _ _ H), (wm_bits_ok _ _ _ H).
    destruct (blen (bv_from_zeros k) =? k), (k <=? 64), (N.ltb_spec a b), (N.leb_spec b (lenN l));
      try (exfalso; apply Hn; split; lia); split; reflexivity.
Qed.
Theorem C104_sorted w l k i : wm_built w l k -> lenN l <= i ->
  if lenN l =? 0 then wm_get_sorted_unchecked w i = Panic /\ wm_get_sorted_u64_unchecked w i = Panic
  else wm_get_sorted_unchecked w i = Ok (bv_of k (2 ^ k - 1)) /\
       (k <= 64 -> wm_get_sorted_u64_unchecked w i = Ok (2 ^ k - 1)).
Proof.
  intros Hb Hi. unfold wm_get_sorted_unchecked, wm_get_sorted_u64_unchecked.
  rewrite (wm_len_ok _ _ _ (wm_built_ok _ _ _ Hb)).
  destruct (C104_quantile w l k 0 (lenN l) i Hb) as [C1 C2].
  destruct (N.eqb_spec (lenN l) 0) as [E|E]; [apply C2; lia|apply C1; lia].
Qed.

(** The documentation of [get_sorted_unchecked] promises a panic or an empty bit vector. *)
Theorem C104_refuted : exists sequence k w i v, wm_from_slice sequence k = Ok w /\ lenN sequence <= i /\
  wm_get_sorted_unchecked w i = Ok v /\ lenN (bits v) = 3 /\ value (bits v) = 7.
Proof.
  exists ex_seq, 3, ex_wm, 8, (bv_of 3 7). vm_compute. repeat split; discriminate.
Qed.
Example C104_ex : wm_quantile_u64_unchecked ex_wm 2 5 3 = Ok 7 /\ wm_quantile_u64_unchecked ex_wm 2 5 2 = Ok 5 /\
  wm_quantile_u64_unchecked ex_wm 2 9 0 = Panic.
Proof. vm_compute. auto. Qed.
