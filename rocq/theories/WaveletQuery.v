(** * The queries of a wavelet matrix, in terms of the encoded numbers. *)
From Coq Require Import Permutation Sorting.Sorted.
From Verif Require Import Base Spec BaseFacts WordFacts BitVecModel BitVecProofs BitVecProofs2 RsVecModel RsVecProofs IterFacts WaveletModel WaveletProofs WaveletOrder WaveletBuild WaveletCount.

(** ** Words of numbers. *)
Definition word_of (k x : N) : word := rev (lowbits x k).
Lemma lenN_rev' {A} (l : list A) : lenN (rev l) = lenN l.
Proof. unfold lenN. now rewrite rev_length. Qed.
Lemma lenN_lowbits x k : lenN (lowbits x k) = k.
Proof. unfold lowbits. rewrite lenN_map, lenN_range. lia. Qed.
Lemma nthN_lowbits x k i : i < k -> nthN false (lowbits x k) i = N.testbit x i.
Proof. intros H. unfold lowbits. rewrite (nthN_map _ 0) by (rewrite lenN_range; lia). now rewrite nthN_range by lia. Qed.
Lemma lenN_word_of k x : lenN (word_of k x) = k.
Proof. unfold word_of. rewrite lenN_rev'. apply lenN_lowbits. Qed.
Lemma value_low x k : value (lowbits x k) = x mod 2 ^ k.
Proof.
  apply N.bits_inj. intros i. rewrite testbit_value. destruct (N.lt_ge_cases i k).
  - now rewrite nthN_lowbits, N.mod_pow2_bits_low by auto.
  - rewrite nthN_overflow, N.mod_pow2_bits_high by (rewrite ?lenN_lowbits; auto). reflexivity.
Qed.
Lemma mval_word_of k x : mval (word_of k x) = x mod 2 ^ k.
Proof. unfold word_of. now rewrite mval_value, rev_involutive, value_low. Qed.
Lemma nthN_rev {A} (d : A) l i : i < lenN l -> nthN d (rev l) i = nthN d l (lenN l - 1 - i).
Proof. intros H. unfold nthN, lenN in *. rewrite rev_nth by lia. f_equal. lia. Qed.
Lemma nthN_word_of k x i : i < k -> nthN false (word_of k x) i = N.testbit x (k - 1 - i).
Proof. intros H. unfold word_of. rewrite nthN_rev by (rewrite lenN_lowbits; auto). rewrite lenN_lowbits. apply nthN_lowbits. lia. Qed.
Lemma word_of_mod k x : word_of k (x mod 2 ^ k) = word_of k x.
Proof. apply mval_inj; [now rewrite !lenN_word_of|]. rewrite !mval_word_of. apply N.mod_mod. now apply N.pow_nonzero. Qed.
Lemma word_of_mval k p : lenN p = k -> word_of k (mval p) = p.
Proof.
  intros H. apply mval_inj; [rewrite lenN_word_of; auto|]. rewrite mval_word_of. apply N.mod_small. rewrite <- H. apply mval_lt.
Qed.
Lemma weqb_word_of k s x : x < 2 ^ k -> weqb (word_of k s) (word_of k x) = (s mod 2 ^ k =? x).
Proof.
  intros Hx. destruct (N.eqb_spec (s mod 2 ^ k) x) as [He|He].
  - apply weqb_spec. rewrite <- He. symmetry. apply word_of_mod.
  - destruct (weqb _ _) eqn:E; [|reflexivity]. apply weqb_spec in E. exfalso. apply He. apply (f_equal mval) in E. rewrite !mval_word_of in E. rewrite E. now apply N.mod_small.
Qed.
Lemma occ_word_of k s l : Forall (fun x => x < 2 ^ k) l -> occ (word_of k s) (map (word_of k) l) = lenN (filter (N.eqb (s mod 2 ^ k)) l).
Proof.
  induction l as [|x l IH]; intros H; [reflexivity|]. inversion H; subst. cbn [map filter]. rewrite occ_cons, IH, weqb_word_of by auto.
  destruct (_ =? x); [rewrite lenN_cons'|]; lia.
Qed.
Lemma filter_map_len {A B} (f : B -> bool) (g : A -> B) l : lenN (filter f (map g l)) = lenN (filter (fun x => f (g x)) l).
Proof. induction l as [|x l IH]; [reflexivity|]. cbn [map filter]. destruct (f (g x)); [rewrite !lenN_cons', IH|]; auto. Qed.

(** A bit vector with the [k] low bits of a number. *)
Definition bv_of (k x : N) : bitvec := mkbv (map (fun i => (x / 2 ^ (64 * i)) mod 2 ^ 64) (range 0 ((k + 63) / 64))) k.
Lemma bv_of_good k x : x < 2 ^ k -> good_bv (bv_of k x) (lowbits x k).
Proof.
  intros Hx.
  assert (Hb : forall i, bit_at (bdata (bv_of k x)) i = N.testbit x i).
  { intros i. unfold bit_at, bv_of. cbn [bdata]. destruct (N.lt_ge_cases (i / 64) ((k + 63) / 64)) as [H|H].
    - rewrite (nthN_map _ 0), nthN_range by (rewrite ?lenN_range; lia). rewrite N.mod_pow2_bits_low by (apply N.mod_lt; lia).
      rewrite <- N.shiftr_div_pow2, N.shiftr_spec by lia. f_equal. pose proof (N.div_mod i 64). lia.
    - rewrite nthN_overflow, N.bits_0 by (rewrite lenN_map, lenN_range; lia). symmetry. apply (testbit_high _ k); auto. dlia. }
  split; [|split].
  - split; [unfold bv_of; cbn [bdata blen]; rewrite lenN_map, lenN_range; lia|]. unfold words, bv_of. cbn [bdata]. apply Forall_forall. intros y Hy.
    apply in_map_iff in Hy as (i & <- & _). apply N.mod_lt. discriminate.
  - intros i Hi. rewrite Hb. now apply (testbit_high _ k).
  - apply list_ext with (d := false).
    + rewrite lenN_bits, lenN_lowbits. reflexivity.
    + intros i Hi. rewrite lenN_bits in Hi. rewrite nthN_bits by auto. cbn [bv_of blen] in Hi. rewrite nthN_lowbits by auto. apply Hb.
Qed.

(** ** Encoded sequences. *)
Record wmok (w : wavelet) (l : list N) (k : N) : Prop := {
  wo_enc : enc w (map (word_of k) l);
  wo_bits : lenN w = k;
  wo_pos : 1 <= k;
  wo_small : Forall (fun x => x < 2 ^ k) l }.
Lemma wm_len_ok w l k : wmok w l k -> wm_len w = lenN l.
Proof.
  intros H. destruct w as [|d w]; [exfalso; pose proof (wo_bits _ _ _ H); pose proof (wo_pos _ _ _ H); cbn in *; lia|].
  destruct (wo_enc _ _ _ H) as (_ & L & _). cbn [wm_len]. rewrite (lv_len _ _ L), !lenN_map. reflexivity.
Qed.
Lemma wm_bits_ok w l k : wmok w l k -> wm_bits w = k.
Proof. apply wo_bits. Qed.

Lemma sorting_ok w l k n B look : 1 <= k -> looks k n B look -> permutation_sorting k n look = Ok w ->
  lenN l = n -> Forall (fun x => x < 2 ^ k) l -> (forall p j, p < n -> j < k -> N.testbit (nthN 0 l p) j = B p j) -> wmok w l k.
Proof.
  intros Hk Hl E Hn Hs HB. destruct (sorting_enc k n B look Hl) as (datas & w' & E' & Hw & _ & _ & _ & He). rewrite E in E'. injection E' as <-.
  constructor; auto. replace (map (word_of k) l) with (map (tail_word k B 0) (range 0 n)); auto.
  apply list_ext with (d := []); [rewrite !lenN_map, lenN_range; lia|]. intros i Hi. rewrite lenN_map, lenN_range in Hi.
  rewrite (nthN_map _ 0), nthN_range by (rewrite ?lenN_range; lia). rewrite (nthN_map _ 0) by lia. rewrite N.add_0_l.
  apply list_ext with (d := false); [unfold tail_word; rewrite lenN_map, lenN_range, lenN_word_of; lia|].
  intros j Hj. unfold tail_word in *. rewrite lenN_map, lenN_range in Hj. rewrite (nthN_map _ 0), nthN_range by (rewrite ?lenN_range; lia).
  rewrite nthN_word_of by lia. rewrite HB by lia. unfold lvl. f_equal. lia.
Qed.

Lemma seq_looks seq k : k <= 64 -> looks k (lenN seq) (fun p j => N.testbit (nthN 0 seq p) j) (seq_bit seq).
Proof.
  intros Hk p j Hp Hj. unfold seq_bit. rewrite (idx_ok 0) by auto. cbn [bind]. unfold shr64_chk. destruct (N.ltb_spec j 64); [|lia]. cbn [bind].
  rewrite land_1, N.shiftr_spec, N.add_0_l by lia. reflexivity.
Qed.
Lemma bv_looks bv k : wf bv -> 1 <= k -> looks k (blen bv / k) (fun p j => bit_at (bdata bv) (p * k + j)) (bv_bit bv k).
Proof.
  intros H Hk p j Hp Hj. unfold bv_bit. apply bv_get_unchecked_ok; auto.
  assert (Hd : k * (blen bv / k) <= blen bv) by (apply N.mul_div_le; lia). nia.
Qed.

(** The sequences of the constructors. *)
Definition trunc (k : N) (l : list N) : list N := map (fun x => x mod 2 ^ k) l.
Definition chunks (k : N) (b : list bool) : list N := map (fun i => value (sliceN (i * k) k b)) (range 0 (lenN b / k)).
Lemma trunc_small k l : Forall (fun x => x < 2 ^ k) (trunc k l).
Proof. apply Forall_forall. intros x Hx. apply in_map_iff in Hx as (y & <- & _). apply N.mod_lt. now apply N.pow_nonzero. Qed.
Lemma trunc_id k l : Forall (fun x => x < 2 ^ k) l -> trunc k l = l.
Proof. induction 1 as [|x l Hx Hl IH]; [reflexivity|]. unfold trunc in *. cbn [map]. rewrite IH, N.mod_small by auto. reflexivity. Qed.
Lemma chunk_bound k (b : list bool) i : 1 <= k -> i < lenN b / k -> i * k + k <= lenN b.
Proof. intros Hk Hi. assert (Hd : k * (lenN b / k) <= lenN b) by (apply N.mul_div_le; lia). nia. Qed.
Lemma chunks_small k b : 1 <= k -> Forall (fun x => x < 2 ^ k) (chunks k b).
Proof.
  intros Hk. apply Forall_forall. intros x Hx. apply in_map_iff in Hx as (i & <- & Hi). apply In_range in Hi.
  pose proof (value_lt (sliceN (i * k) k b)) as Hv. rewrite lenN_sliceN in Hv by (apply chunk_bound; lia). exact Hv.
Qed.
Lemma from_slice_wmok seq k : 1 <= k -> k <= 64 -> exists w, wm_from_slice seq k = Ok w /\ wmok w (trunc k seq) k.
Proof.
  intros H1 H2. unfold wm_from_slice. destruct (N.leb_spec k 64); [|lia]. cbn [assert bind].
  destruct (sorting_enc k _ _ _ (seq_looks seq k H2)) as (datas & w & E & _). exists w. split; [auto|].
  eapply sorting_ok; [auto|apply seq_looks; auto|exact E|apply lenN_map|apply trunc_small|].
  intros p j Hp Hj. unfold trunc. rewrite (nthN_map _ 0) by auto. now rewrite N.mod_pow2_bits_low.
Qed.
Lemma from_bit_vec_wmok bv k : wf bv -> 1 <= k -> blen bv mod k = 0 -> exists w, wm_from_bit_vec bv k = Ok w /\ wmok w (chunks k (bits bv)) k.
Proof.
  intros H H1 H2. unfold wm_from_bit_vec. destruct (N.eqb_spec k 0); [lia|]. cbn [negb assert bind]. rewrite H2. cbn [N.eqb assert bind].
  destruct (sorting_enc k _ _ _ (bv_looks bv k H H1)) as (datas & w & E & _). exists w. split; [auto|].
  eapply sorting_ok; [auto|apply bv_looks; [exact H|auto]|exact E| |apply chunks_small; auto|].
  - unfold chunks. rewrite lenN_map, lenN_range, lenN_bits. apply N.sub_0_r.
  - intros p j Hp Hj. unfold chunks. rewrite (nthN_map _ 0), nthN_range by (rewrite ?lenN_range, ?N.sub_0_r, lenN_bits; auto). rewrite N.add_0_l, testbit_value.
    assert (Hc : p * k + k <= lenN (bits bv)) by (apply chunk_bound; rewrite ?lenN_bits; auto). rewrite lenN_bits in Hc.
    rewrite nthN_sliceN by (rewrite ?lenN_bits; lia). apply nthN_bits. lia.
Qed.
Lemma from_slice_pc_eq seq k : 1 <= k -> k <= 63 -> Forall (fun x => x < 2 ^ k) seq -> wm_from_slice_pc seq k = wm_from_slice seq k.
Proof.
  intros H1 H2 Hs. unfold wm_from_slice_pc, wm_from_slice. destruct (N.leb_spec k 64); [|lia]. cbn [assert bind].
  apply (constructions_agree k (lenN seq) (fun p j => N.testbit (nthN 0 seq p) j) (fun p => nthN 0 seq p)); auto.
  - intros p j. destruct (N.ltb_spec j k); [reflexivity|]. cbn [andb]. destruct (N.lt_ge_cases p (lenN seq)) as [Hp|Hp].
    + apply (testbit_high _ k); auto. rewrite Forall_forall in Hs. apply Hs. now apply In_nthN.
    + rewrite nthN_overflow by auto. apply N.bits_0.
  - apply seq_looks. lia.
  - intros p Hp. now apply idx_ok.
Qed.
Lemma from_bit_vec_pc_eq bv k : wf bv -> 1 <= k -> k <= 63 -> blen bv mod k = 0 -> wm_from_bit_vec_pc bv k = wm_from_bit_vec bv k.
Proof.
  intros H H1 H2 Hm. unfold wm_from_bit_vec_pc, wm_from_bit_vec. destruct (N.eqb_spec k 0); [lia|]. cbn [negb assert bind]. rewrite Hm. cbn [N.eqb assert bind].
  destruct (N.leb_spec k 64); [|lia]. cbn [assert bind].
  apply (constructions_agree k (blen bv / k) (fun p j => bit_at (bdata bv) (p * k + j))
     (fun p => value (map (fun j => bit_at (bdata bv) (p * k + j)) (range 0 k)))); auto.
  - intros p j. rewrite testbit_value. destruct (N.ltb_spec j k).
    + rewrite (nthN_map _ 0), nthN_range by (rewrite ?lenN_range; lia). now rewrite N.add_0_l.
    + apply nthN_overflow. rewrite lenN_map, lenN_range. lia.
  - now apply bv_looks.
  - intros p Hp. unfold bv_element.
    assert (Hc : p * k + k <= blen bv) by (rewrite <- lenN_bits; apply chunk_bound; rewrite ?lenN_bits; auto).
    rewrite bv_get_bits_unchecked_ok by (auto; lia). f_equal. f_equal. apply list_ext with (d := false).
    + rewrite lenN_sliceN, lenN_map, lenN_range by (rewrite lenN_bits; lia). lia.
    + intros j Hj. rewrite lenN_sliceN in Hj by (rewrite lenN_bits; lia). rewrite nthN_sliceN by (rewrite ?lenN_bits; lia). rewrite nthN_bits by lia.
      rewrite (nthN_map _ 0), nthN_range by (rewrite ?lenN_range; lia). now rewrite N.add_0_l.
Qed.

(** ** Readers and writers. *)
Section Query.
Variables (w : wavelet) (l : list N) (k : N).
Hypothesis H : wmok w l k.

Lemma rd_bv_reads s : wf s -> blen s = k -> reads (rd_bv w s) 0 (word_of k (value (bits s))).
Proof using H.
  intros Hs Hb j Hj. rewrite lenN_word_of in Hj. unfold rd_bv, sym_pos. rewrite (wm_bits_ok _ _ _ H). pose proof (wo_pos _ _ _ H).
  rewrite (sub_ok k) by auto. cbn [bind]. rewrite (sub_ok (k - 1)) by lia. cbn [bind]. rewrite bv_get_unchecked_ok by (auto; lia).
  rewrite nthN_word_of by auto. rewrite testbit_value, nthN_bits by lia. do 3 f_equal. 
Qed.
Lemma rd_u64_reads s : k <= 64 -> reads (rd_u64 w s) 0 (word_of k s).
Proof using H.
  intros Hk j Hj. rewrite lenN_word_of in Hj. unfold rd_u64, sym_pos. rewrite (wm_bits_ok _ _ _ H). pose proof (wo_pos _ _ _ H).
  rewrite (sub_ok k) by auto. cbn [bind]. rewrite (sub_ok (k - 1)) by lia. cbn [bind]. unfold shr64_chk. rewrite N.add_0_l. destruct (N.ltb_spec (k - 1 - j) 64); [|lia]. cbn [bind].
  rewrite land_1, N.shiftr_spec, N.add_0_l by lia. now rewrite nthN_word_of.
Qed.
Definition rep_bv (p : word) (t : bitvec) : Prop := good_bv t (replicate (k - lenN p) false ++ rev p).
Definition rep_u64 (p : word) (t : N) : Prop := t = mval p.
Lemma rep_bv_new : rep_bv [] (bv_from_zeros (wm_bits w)).
Proof using H. unfold rep_bv. rewrite (wm_bits_ok _ _ _ H). cbn [rev]. rewrite app_nil_r. change (lenN (@nil bool)) with 0. rewrite N.sub_0_r. apply gb_zeros. Qed.
Lemma rep_bv_set b p t : rep_bv p t -> lenN p < k -> exists t', bv_set_unchecked t (k - 1 - lenN p) (bitN b) = Ok t' /\ rep_bv (p ++ [b]) t'.
Proof using.
  intros Hr Hp. unfold rep_bv in *. rewrite (replicate_cons (k - lenN p)) in Hr by lia.
  assert (Hc : false :: replicate (k - lenN p - 1) false = replicate (k - lenN p - 1) false ++ [false]).
  { unfold replicate. change (false :: repeat false (N.to_nat (k - lenN p - 1))) with (repeat false (S (N.to_nat (k - lenN p - 1)))).
    rewrite <- repeat_cons. reflexivity. }
  rewrite Hc, <- app_assoc in Hr. cbn [app] in Hr.
  destruct (gb_set t _ (k - 1 - lenN p) (bitN b) Hr) as (t' & E & G).
  { rewrite lenN_app', lenN_replicate, lenN_cons'. lia. }
  exists t'. split; [auto|]. replace (k - 1 - lenN p) with (lenN (replicate (k - lenN p - 1) false)) in G by (rewrite lenN_replicate; lia).
  rewrite set_nth_app_mid in G. rewrite rev_app_distr, lenN_app'. cbn [rev app]. change (lenN [b]) with 1. replace (k - (lenN p + 1)) with (k - lenN p - 1) by lia.
  now replace (N.testbit (bitN b) 0) with b in G by (now destruct b).
Qed.
Lemma sym_pos_ok j : j < k -> sym_pos w j = Ok (k - 1 - j).
Proof using H.
  intros Hj. unfold sym_pos. rewrite (wm_bits_ok _ _ _ H). rewrite (sub_ok k) by lia. cbn [bind]. now rewrite (sub_ok (k - 1)) by lia.
Qed.
Lemma wr_bv_ok b p t : rep_bv p t -> lenN p < k -> exists t', wr_bv w (bitN b) (lenN p) t = Ok t' /\ rep_bv (p ++ [b]) t'.
Proof using H. intros Hr Hp. unfold wr_bv. rewrite sym_pos_ok by auto. cbn [bind]. now apply rep_bv_set. Qed.
Lemma wr_ones_ok b p t : rep_bv p t -> lenN p < k -> exists t', wr_ones w (bitN b) (lenN p) t = Ok t' /\ rep_bv (p ++ [b]) t'.
Proof using H.
  intros Hr Hp. unfold wr_ones. destruct b; cbn [bitN N.eqb]; [now apply (wr_bv_ok true)|].
  exists t. split; [auto|]. unfold rep_bv in *. rewrite rev_app_distr, lenN_app'. cbn [rev app]. change (lenN [false]) with 1.
  replace (replicate (k - (lenN p + 1)) false ++ false :: rev p) with (replicate (k - lenN p) false ++ rev p); auto.
  unfold replicate. replace (N.to_nat (k - lenN p)) with (S (N.to_nat (k - (lenN p + 1)))) by lia. cbn [repeat]. rewrite repeat_cons, <- app_assoc. reflexivity.
Qed.
Lemma wr_u64_ok b p t : k <= 64 -> rep_u64 p t -> lenN p < k -> exists t', wr_u64 (bitN b) (lenN p) t = Ok t' /\ rep_u64 (p ++ [b]) t'.
Proof using.
  unfold rep_u64. intros Hk -> Hp. unfold wr_u64. eexists. split; [reflexivity|]. rewrite mval_snoc.
  assert (Hv : mval p < 2 ^ 63) by (eapply N.lt_le_trans; [apply mval_lt|apply N.pow_le_mono_r; lia]).
  assert (Es : shl64 (mval p) 1 = 2 * mval p).
  { unfold shl64. rewrite N.shiftl_mul_pow2. change (2 ^ 1) with 2. rewrite N.mod_small by (unfold U64; lia). lia. }
  rewrite Es. destruct b; cbn [bitN]; [|now rewrite N.lor_0_r, N.add_0_r].
  apply N.bits_inj. intros i. rewrite N.lor_spec, testbit_1. destruct (N.eqb_spec i 0) as [->|Hi].
  - now rewrite N.testbit_odd_0, orb_true_r.
  - rewrite orb_false_r. replace i with (N.succ (i - 1)) by lia. rewrite N.testbit_odd_succ, N.testbit_even_succ by lia. reflexivity.
Qed.
Lemma rep_bv_full p t : lenN p = k -> rep_bv p t -> t = bv_of k (mval p).
Proof using.
  intros Hp Hr. unfold rep_bv in Hr. rewrite Hp, N.sub_diag in Hr. cbn [replicate N.to_nat repeat app] in Hr.
  eapply gb_unique; [exact Hr|]. pose proof (bv_of_good k (mval p)) as G. replace (lowbits (mval p) k) with (rev p) in G.
  - apply G. rewrite <- Hp. apply mval_lt.
  - rewrite <- (word_of_mval k p) at 1 by auto. unfold word_of. now rewrite rev_involutive.
Qed.
End Query.

(** Splitting the sequence at a range. *)
Lemma split3 {A} (l : list A) a b : a <= b -> b <= lenN l ->
  exists S1 S2 S3, l = S1 ++ S2 ++ S3 /\ S1 = takeN a l /\ S2 = sliceN a (b - a) l /\ lenN S1 = a /\ lenN S2 = b - a.
Proof.
  intros H1 H2. exists (takeN a l), (sliceN a (b - a) l), (dropN (b - a) (dropN a l)). repeat split.
  - unfold sliceN. now rewrite !takeN_dropN.
  - rewrite lenN_takeN. lia.
  - apply lenN_sliceN. lia.
Qed.
