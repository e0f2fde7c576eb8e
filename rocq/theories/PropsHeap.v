(** * Properties C72-C76: the space used by the structures.

    All numbers of bytes are exact; the bounds are in bits, where [8 * size] is compared. *)
From Coq Require Import Permutation.
From Verif Require Import Base Spec BaseFacts WordFacts BitVecModel BitVecProofs BitVecProofs2 RsVecModel RsVecProofs RsVecSelect RsEqProofs PropsRsVec
  EFModel EFProofs EFQuery PropsEF SparseModel PropsSparse RmqModel RmqProofs FastRmqProofs PropsRmq
  WaveletModel WaveletProofs WaveletOrder WaveletBuild WaveletCount WaveletQuery WaveletAnswer PropsWavelet
  BpModel BpExcess BpMmt BpBlock PropsBp HeapModel.

Definition ceil_div (a b : N) : N := (a + b - 1) / b.

(** The bytes of a rank/select vector with [n] bits, [z] of them 0. The select samples count the
    unused bits of the last limb as ones. *)
Definition rs_bytes (n z : N) : N :=
  8 * ceil_div n 64 + 2 * ceil_div n 512 + 8 * ceil_div n 8192 +
  16 * (N.max (z / 8192) ((64 * ceil_div n 64 - z) / 8192) + 2).

(** ** C72: bit vectors. *)
Theorem C72_bit_vec bv : wf bv -> bv_heap_size bv = 8 * ceil_div (lenN (bits bv)) 64.
Proof. intros [E _]. unfold bv_heap_size, ceil_div. rewrite E, lenN_bits. rewrite N.mul_comm. f_equal. f_equal. lia. Qed.
Lemma rs_good_bytes bv rs : wf bv -> rs_good bv rs -> rs_heap_size rs = rs_bytes (blen bv) (rrank0 rs).
Proof.
  intros [E _] G. unfold rs_heap_size, rs_bytes, ceil_div.
  rewrite (good_data _ _ G), (good_blocks_len _ _ G), (good_supers_len _ _ G), (good_sel_len _ _ G), E.
  replace (blen bv + 64 - 1) with (blen bv + 63) by lia. set (n := blen bv).
  replace (((n + 63) / 64 + 7) / 8) with ((n + 512 - 1) / 512) by dlia.
  replace (((n + 63) / 64 + 127) / 128) with ((n + 8192 - 1) / 8192) by dlia. lia.
Qed.
Theorem C72_rs_vec bv rs : wf bv -> rs_from_bit_vec bv = Ok rs ->
  rs_heap_size rs = rs_bytes (lenN (bits bv)) (count false (bits bv)).
Proof.
  intros H E. pose proof (built bv rs H E) as G. rewrite (rs_good_bytes bv rs H G), lenN_bits, count_bits_false.
  now rewrite (good_rank0 _ _ G).
Qed.
(** The documented overhead: 28 bits per 512 bits, up to a constant. *)
Lemma rs_bytes_bound n z : z <= n -> 512 * (8 * rs_bytes n z) <= 512 * (64 * ceil_div n 64) + 28 * n + 512 * 337.
Proof. intros Hz. unfold rs_bytes, ceil_div. dlia. Qed.
Theorem C72_rs_overhead bv rs : wf bv -> rs_from_bit_vec bv = Ok rs ->
  512 * (8 * rs_heap_size rs) <= 512 * (8 * bv_heap_size bv) + 28 * lenN (bits bv) + 512 * 337.
Proof.
  intros H E. rewrite (C72_rs_vec bv rs H E), (C72_bit_vec bv H).
  assert (Hz : count false (bits bv) <= lenN (bits bv)) by (rewrite count_bits_false, lenN_bits; apply cnt_le).
  pose proof (rs_bytes_bound _ _ Hz). lia.
Qed.
(** The rate is attained by vectors of ones. *)
Theorem C72_rs_overhead_tight bv rs : wf bv -> rs_from_bit_vec bv = Ok rs -> count false (bits bv) = 0 ->
  512 * (8 * bv_heap_size bv) + 28 * lenN (bits bv) <= 512 * (8 * rs_heap_size rs).
Proof.
  intros H E Hz. rewrite (C72_rs_vec bv rs H E), (C72_bit_vec bv H), Hz. unfold rs_bytes, ceil_div.
  set (n := lenN (bits bv)). dlia.
Qed.
Example C72_ex : match rs_from_bit_vec (mkbv [7; 1] 70) with
  | Ok rs => rs_heap_size rs = 58 /\ rs_bytes 70 66 = 58 | _ => False end.
Proof. vm_compute. auto. Qed.

(** ** C73, C74: Elias-Fano vectors. *)
Definition ef_upper_len (data : list N) (w : N) : N :=
  2 + lenN data + (nthN 0 data (lenN data - 1) - nthN 0 data 0) / 2 ^ w.
(** The exact size. With low parts of width 0 every element still costs a 64-bit limb. *)
Theorem C74_ef_exact data w e :
  nondecreasing data -> Forall (fun x => x < 2 ^ 64) data -> w < 64 -> data <> [] -> ef_from_slice w data = Ok e ->
  ef_heap_size e = rs_bytes (ef_upper_len data w) (ef_upper_len data w - lenN data) +
    8 * (if w =? 0 then lenN data else ceil_div (lenN data * w) 64).
Proof.
  intros Hs Hd Hw Hne E. destruct (ef_built data w e Hs Hd Hw E) as [(E0 & _)|[Hn G]]; [congruence|].
  destruct (up_bits data w e Hs Hd Hn Hw G) as (bv & H1 & H2 & H3 & _ & H5). unfold ef_heap_size, bv_heap_size.
  rewrite (rs_good_bytes bv _ H1 H2), (eg_low_len _ _ _ G), (good_rank0 _ _ H2).
  assert (Hm : blen bv = ef_upper_len data w) by (rewrite H3; reflexivity).
  assert (Hc : cnt (bit_at (bdata bv)) (blen bv) = lenN data).
  { rewrite H3, H5 by lia. transitivity (cnt (fun _ => true) (lenN data)); [|apply cnt_true]. apply cnt_ext. intros k Hk.
    pose proof (eU_mono data w Hs Hd Hn Hw k (lenN data - 1) ltac:(lia) ltac:(lia)). apply N.ltb_lt. unfold ePos. lia. }
  assert (Hz : cnt (zbit (bdata bv)) (blen bv) = blen bv - lenN data).
  { rewrite cnt_bit_zbit in Hc. pose proof (cnt_le (zbit (bdata bv)) (blen bv)). lia. }
  rewrite Hz, Hm. rewrite N.mul_comm with (m := 8). f_equal. unfold ceil_div. destruct (w =? 0); [reflexivity|].
  f_equal. f_equal. lia.
Qed.
Theorem C74_ef_empty w e : ef_from_slice w [] = Ok e -> ef_heap_size e = 32.
Proof. cbn. intros E. injection E as <-. reflexivity. Qed.

(** The documented size, with the width from exact logarithms: [w] bits per low part and at most
    [3 n + 2] bits for the upper vector with its overhead, up to a constant. It fails for dense data. *)
Definition ef_small (data : list N) (e : ef) : Prop :=
  512 * (8 * ef_heap_size e) <= 512 * (lenN data * ef_width data) + 540 * (3 * lenN data + 2) + 512 * 463.
Lemma heap_sum R n w m z : z <= m -> m <= 3 * n + 2 -> R = rs_bytes m z + 8 * ceil_div (n * w) 64 ->
  512 * (8 * R) <= 512 * (n * w) + 540 * (3 * n + 2) + 512 * 463.
Proof.
  intros Hz Hm ->. pose proof (rs_bytes_bound m z Hz) as H. set (x := rs_bytes m z) in *. clearbody x. set (p := n * w). clearbody p.
  unfold ceil_div in *. dlia.
Qed.
Theorem C73_partial data e :
  nondecreasing data -> Forall (fun x => x < 2 ^ 64) data -> lenN data < 2 ^ 64 -> data <> [] ->
  0 < ef_width data -> ef_from_slice (ef_width data) data = Ok e -> ef_small data e.
Proof.
  intros Hs Hd H64 Hne H0 E. assert (Hn : 0 < lenN data) by (destruct data; [congruence|rewrite lenN_cons; lia]).
  destruct (C54_width data Hs Hd H64 Hn) as (Hw & e' & E' & Hu). rewrite E in E'. injection E' as <-.
  pose proof (C74_ef_exact data _ e Hs Hd Hw Hne E) as X. destruct (N.eqb_spec (ef_width data) 0) as [?|_]; [lia|].
  destruct (ef_built data _ e Hs Hd Hw E) as [(E0 & _)|[_ G]]; [congruence|].
  destruct (eg_up _ _ _ G) as (bv & H1 & H2 & H3 & _). rewrite (good_len _ _ H2), H3 in Hu.
  apply (heap_sum _ _ _ _ _ (N.le_sub_l _ _) Hu X).
Qed.
Definition ex_dense : list N := range 0 14.
Theorem C73_refuted : exists data e, nondecreasing data /\ Forall (fun x => x < 2 ^ 64) data /\
  ef_from_slice (ef_width data) data = Ok e /\ lenN data = 14 /\ ef_width data = 0 /\ 8 * ef_heap_size e = 1296 /\ ~ ef_small data e.
Proof.
  exists ex_dense, (match ef_from_slice 0 ex_dense with Ok e => e | _ => mkef (mkrs [] 0 [] [] [] 0 0) bv_new 0 0 0 0 end).
  split; [|split; [|vm_compute; repeat (split; [reflexivity|]); intros H; now apply H]].
  - intros i j x y Hij Hx Hy. apply getN_Some_inv in Hx as [Hi Hx]. apply getN_Some_inv in Hy as [Hj Hy]. rewrite <- (Hx 0), <- (Hy 0).
    unfold ex_dense in *. rewrite lenN_range in *. rewrite !nthN_range by lia. lia.
  - apply Forall_forall. intros x Hx. apply In_range in Hx. lia.
Qed.
(** Dense data in general: more than a 64-bit word per element. *)
Theorem C74_dense data e :
  nondecreasing data -> Forall (fun x => x < 2 ^ 64) data -> data <> [] -> ef_width data = 0 ->
  ef_from_slice (ef_width data) data = Ok e -> 8 * lenN data < ef_heap_size e.
Proof.
  intros Hs Hd Hne H0 E. rewrite H0 in E. rewrite (C74_ef_exact data 0 e Hs Hd ltac:(lia) Hne E). cbn [N.eqb].
  unfold rs_bytes. lia.
Qed.
Example C74_ex : match ef_from_slice 3 [5; 9; 60] with
  | Ok e => ef_heap_size e = 58 /\ rs_bytes 11 8 + 8 * ceil_div 9 64 = 58 | _ => False end.
Proof. vm_compute. auto. Qed.
Example C73_ex : ef_width [5; 9; 60] = 4 /\ match ef_from_slice 4 [5; 9; 60] with Ok e => ef_heap_size e = 58 | _ => False end.
Proof. vm_compute. auto. Qed.

(** ** C75: range minimum structures. *)
Theorem C75_binary data b : br_from_vec data = Ok b ->
  br_heap_size b = 8 * lenN data + 4 * (lenN data * (N.log2_up (lenN data) + 1)).
Proof.
  intros E. destruct (N.lt_ge_cases (lenN data) (2 ^ 32)) as [H|H].
  - destruct (br_from_vec_ok data H) as (b' & E' & H1 & (H2 & _)). rewrite E in E'. injection E' as <-.
    unfold br_heap_size. rewrite H1, H2. unfold tz_npt. lia.
  - unfold br_from_vec in E. destruct (N.ltb_spec (lenN data) (2 ^ 32)); [lia|discriminate].
Qed.
Theorem C75_fast data r : fr_from_vec data = Ok r ->
  fr_heap_size r = 8 * lenN data + 41 * ceil_div (lenN data) 128 +
    4 * (ceil_div (lenN data) 128 * (N.log2_up (ceil_div (lenN data) 128) + 1)).
Proof.
  intros E. destruct (N.le_gt_cases (lenN data) (2 ^ 39 - 128)) as [H|H]; [|apply C57_length_limit in H; congruence].
  destruct (fr_from_vec_ok data) as (r' & E' & G); [lia|apply N.div_lt_upper_bound; lia|]. rewrite E in E'. injection E' as <-.
  destruct G as [G1 (G2 & G3 & G4 & _) _ (G5 & _)]. unfold fr_heap_size, br_heap_size. rewrite G1, G5, G2, G3, G4.
  unfold tz_npt, ceil_div. replace (lenN data + 128 - 1) with (lenN data + 127) by lia. lia.
Qed.
Example C75_ex : match br_from_vec [3; 1; 2], fr_from_vec [3; 1; 2] with
  | Ok b, Ok r => br_heap_size b = 60 /\ fr_heap_size r = 69 | _, _ => False end.
Proof. vm_compute. auto. Qed.

Theorem C74_sparse p len w s :
  increasing p -> Forall (fun x => x < len) p -> len < 2 ^ 64 -> w < 64 -> p <> [] -> sp_new w p len = Ok s ->
  sp_heap_size s = rs_bytes (ef_upper_len p w) (ef_upper_len p w - lenN p) +
    8 * (if w =? 0 then lenN p else ceil_div (lenN p * w) 64).
Proof.
  intros Hp Hl H64 Hw Hne E. destruct (sp_parts p len w s Hp Hl H64 Hw E) as [E' _].
  apply C74_ef_exact; auto; [now apply increasing_nondecreasing|]. eapply Forall_impl; [|exact Hl]. cbn. intros. lia.
Qed.

(** ** C76: wavelet matrices and trees. *)
Lemma part_perm S : Permutation (part S) (map (@tl bool) S).
Proof.
  unfold part. induction S as [|x S IH]; [apply Permutation_refl|]. rewrite !sel_cons. cbn [map]. destruct (hdb x); cbn [Bool.eqb app].
  - apply Permutation_sym. eapply Permutation_trans; [apply perm_skip, Permutation_sym, IH|]. apply Permutation_middle.
  - apply perm_skip, IH.
Qed.
Lemma count_perm b l m : Permutation l m -> count b l = count b m.
Proof. induction 1; cbn [count]; lia. Qed.
Definition column (i : nat) (T : list word) : list bool := map (fun w => nth i w false) T.
Lemma enc_bytes ds : forall S T, enc ds S -> Permutation S T ->
  sumN (map rs_heap_size ds) = sumN (map (fun i => rs_bytes (lenN T) (count false (column i T))) (seq 0 (length ds))).
Proof.
  induction ds as [|d ds IH]; intros S T HE HP; [reflexivity|]. destruct HE as (_ & L & HE). cbn [map length seq].
  cbn [sumN fold_right]. f_equal.
  - destruct (lv_src _ _ L) as (bv & Hwf & Hb & Hbits). rewrite (C72_rs_vec bv d Hwf Hb), Hbits, lenN_map.
    rewrite (count_perm false _ (column 0 T)).
    + f_equal. unfold lenN. f_equal. now apply Permutation_length.
    + apply Permutation_trans with (map hdb T); [now apply Permutation_map|].
      unfold column. erewrite map_ext; [apply Permutation_refl|]. now intros [|? ?].
  - change (fold_right N.add 0) with sumN. rewrite (IH (part S) (map (@tl bool) T) HE).
    + rewrite <- seq_shift, map_map. f_equal. apply map_ext. intros i. rewrite lenN_map. f_equal. f_equal.
      unfold column. rewrite map_map. apply map_ext. intros [|? ?]; [now destruct i|reflexivity].
    + eapply Permutation_trans; [apply part_perm|]. now apply Permutation_map.
Qed.
Theorem C76_wavelet w l k : wm_built w l k ->
  wm_heap_size w = sumN (map (fun i => rs_bytes (lenN l) (count false (map (fun x => N.testbit x i) l))) (range 0 k)).
Proof.
  intros Hb. destruct (wm_built_ok _ _ _ Hb) as [HE Hk H1 _]. unfold wm_heap_size. rewrite (enc_bytes w _ _ HE (Permutation_refl _)).
  rewrite lenN_map.
  assert (HX : map (fun i => rs_bytes (lenN l) (count false (column i (map (word_of k) l)))) (seq 0 (length w)) =
    rev (map (fun i => rs_bytes (lenN l) (count false (map (fun x => N.testbit x i) l))) (range 0 k))).
  { apply list_ext with (d := 0).
    - rewrite lenN_rev', !lenN_map, lenN_range. unfold lenN in *. rewrite seq_length. lia.
    - intros i Hi. rewrite lenN_map in Hi. unfold lenN in Hi. rewrite seq_length in Hi. change (N.of_nat (length w)) with (lenN w) in Hi. rewrite Hk in Hi.
      rewrite (nthN_map _ 0%nat) by (unfold lenN in *; rewrite seq_length; lia).
      assert (Hi' : nthN 0%nat (seq 0 (length w)) i = N.to_nat i) by (unfold nthN; rewrite seq_nth; unfold lenN in Hk; lia).
      rewrite Hi'.
      rewrite nthN_rev by (rewrite lenN_map, lenN_range; lia). rewrite lenN_map, lenN_range.
      rewrite (nthN_map _ 0) by (rewrite lenN_range; lia). rewrite nthN_range by lia.
      f_equal. f_equal. unfold column. rewrite map_map. apply map_ext. intros x.
      change (nthN false (word_of k x) i = N.testbit x (0 + (k - 0 - 1 - i))). unfold word_of.
      rewrite nthN_rev by (rewrite lenN_lowbits; lia). rewrite lenN_lowbits, nthN_lowbits by lia. f_equal. lia. }
  rewrite HX. clear. induction (map _ (range 0 k)) as [|x m IH]; [reflexivity|]. cbn [rev]. unfold sumN in *. rewrite fold_right_app. cbn [fold_right].
  rewrite <- IH. clear. rewrite N.add_0_r. induction (rev m) as [|y r IH]; cbn [fold_right]; lia.
Qed.
Theorem C76_wavelet_bound w l k : wm_built w l k ->
  512 * (8 * wm_heap_size w) <= k * (512 * (64 * ceil_div (lenN l) 64) + 28 * lenN l + 512 * 337).
Proof.
  intros Hb. rewrite (C76_wavelet w l k Hb). set (X := 512 * (64 * ceil_div (lenN l) 64) + 28 * lenN l + 512 * 337).
  assert (HX : forall i, 512 * (8 * rs_bytes (lenN l) (count false (map (fun x => N.testbit x i) l))) <= X).
  { intros i. apply rs_bytes_bound. rewrite <- (lenN_map (fun x => N.testbit x i) l).
    induction (map (fun x => N.testbit x i) l) as [|y r IH]; [cbn; lia|]. rewrite lenN_cons. cbn [count]. destruct (Bool.eqb y false); lia. }
  replace k with (lenN (range 0 k)) at 2 by (rewrite lenN_range; lia). induction (range 0 k) as [|i r IH]; [cbn; lia|].
  cbn [map sumN fold_right]. change (fold_right N.add 0) with sumN. rewrite lenN_cons. specialize (HX i). lia.
Qed.
Example C76_ex : match wm_from_slice [3; 1; 0; 5] 3 with Ok w => wm_heap_size w = 150 | _ => False end.
Proof. vm_compute. auto. Qed.

Theorem C76_tree B bv t : wf bv -> 0 < B -> 0 < lenN (bits bv) -> bp_from_bit_vector B bv = Ok t ->
  let leaves := ceil_div (lenN (bits bv)) B in
  bp_heap_size t = rs_bytes (lenN (bits bv)) (count false (bits bv)) + 24 * (leaves + 2 ^ N.max 1 (N.log2_up leaves) - 1).
Proof.
  intros Hwf HB HL E leaves. destruct (bp_built B bv t Hwf HB E) as [_ _ G Hm]. rewrite lenN_bits in HL. specialize (Hm HL) as [Hm _].
  unfold bp_heap_size, mmt_heap_size. rewrite (rs_good_bytes bv _ Hwf G), lenN_bits, count_bits_false, (good_rank0 _ _ G). f_equal.
  rewrite Hm. unfold nleaves, div_ceil, height. fold (ceil_div (lenN (bits bv)) B). fold leaves.
  pose proof (pow2_pos (N.max 1 (N.log2_up leaves))). lia.
Qed.
Theorem C76_tree_empty B bv t : wf bv -> 0 < B -> lenN (bits bv) = 0 -> bp_from_bit_vector B bv = Ok t -> bp_heap_size t = 32.
Proof.
  intros Hwf HB HL E. destruct (bp_built B bv t Hwf HB E) as [_ _ G _]. rewrite lenN_bits in HL.
  unfold bp_from_bit_vector, mmt_excess_tree in E. rewrite HL in E. cbn [N.eqb bind] in E.
  destruct (rs_from_bit_vec bv) as [rs| |] eqn:Er; cbn [bind] in E; try discriminate. injection E as <-. cbn [bp_vec] in G.
  unfold bp_heap_size, mmt_heap_size. cbn [bp_vec bp_mmt]. rewrite (rs_good_bytes bv _ Hwf G), (good_rank0 _ _ G), HL. reflexivity.
Qed.
(** At most three nodes for each block of [B] parentheses. *)
Theorem C76_tree_bound B bv t : wf bv -> 0 < B -> 0 < lenN (bits bv) -> bp_from_bit_vector B bv = Ok t ->
  lenN (bp_mmt t) <= 3 * ceil_div (lenN (bits bv)) B.
Proof.
  intros Hwf HB HL E. destruct (bp_built B bv t Hwf HB E) as [_ _ G Hm]. rewrite lenN_bits in HL. specialize (Hm HL) as [Hm _].
  rewrite Hm. rewrite <- lenN_bits in HL. pose proof (leaves_pos _ _ HB HL) as H1. unfold nleaves, div_ceil, height in *. fold (ceil_div (lenN (bits bv)) B) in *.
  set (c := ceil_div (lenN (bits bv)) B) in *. clearbody c. destruct (N.eq_dec c 1) as [->|]; [cbn; lia|].
  assert (H2 : 1 < c) by lia. pose proof (N.log2_up_spec c H2) as [H3 _]. pose proof (N.log2_up_pos c H2).
  replace (N.max 1 (N.log2_up c)) with (N.succ (N.pred (N.log2_up c))) by lia. rewrite N.pow_succ_r'. lia.
Qed.
Example C76_tree_ex : match bp_from_bit_vector 2 (mkbv [11] 6) with Ok t => bp_heap_size t = 194 /\ lenN (bp_mmt t) = 6 | _ => False end.
Proof. vm_compute. auto. Qed.
