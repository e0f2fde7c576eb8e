(** * Bit-level lemmas about 64-bit words. *)
From Verif Require Import Base Spec BaseFacts.

Lemma U64_pow : U64 = 2 ^ 64.
Proof. reflexivity. Qed.

Lemma testbit_high w n i : w < 2 ^ n -> n <= i -> N.testbit w i = false.
Proof.
  intros Hw Hi. destruct (N.eq_dec w 0) as [->|Hz]; [apply N.bits_0|].
  apply N.bits_above_log2. assert (N.log2 w < n); [|lia].
  apply N.log2_lt_pow2; lia.
Qed.

Lemma testbit_lt w n : (forall i, n <= i -> N.testbit w i = false) -> w < 2 ^ n.
Proof.
  intros H. destruct (N.eq_dec w 0) as [->|Hz].
  - assert (2 ^ n <> 0) by (apply N.pow_nonzero; lia). lia.
  - apply N.log2_lt_pow2; [lia|]. destruct (N.lt_ge_cases (N.log2 w) n) as [L|L]; auto.
    specialize (H _ L). rewrite N.bit_log2 in H by auto. discriminate.
Qed.

Lemma testbit_U64_high w i : w < U64 -> 64 <= i -> N.testbit w i = false.
Proof. intros. apply testbit_high with (n := 64); auto. Qed.

Lemma shl64_spec x n i :
  N.testbit (shl64 x n) i = (i <? 64) && (n <=? i) && N.testbit x (i - n).
Proof.
  unfold shl64. rewrite U64_pow. destruct (N.ltb_spec i 64).
  - rewrite N.mod_pow2_bits_low by auto. destruct (N.leb_spec n i); cbn.
    + apply N.shiftl_spec_high'; auto.
    + apply N.shiftl_spec_low; auto.
  - rewrite N.mod_pow2_bits_high by auto. reflexivity.
Qed.

Lemma shl64_lt x n : shl64 x n < U64.
Proof. unfold shl64. apply N.mod_lt. discriminate. Qed.

Lemma testbit_1 i : N.testbit 1 i = (i =? 0).
Proof. destruct i; reflexivity. Qed.

Lemma shl64_1_spec n i : n < 64 -> N.testbit (shl64 1 n) i = (i =? n).
Proof.
  intros. rewrite shl64_spec, testbit_1.
  destruct (N.ltb_spec i 64), (N.leb_spec n i), (N.eqb_spec (i - n) 0), (N.eqb_spec i n); cbn; lia.
Qed.

Lemma ones64 : U64 - 1 = N.ones 64.
Proof. reflexivity. Qed.

Lemma ones_spec n i : N.testbit (N.ones n) i = (i <? n).
Proof.
  destruct (N.ltb_spec i n).
  - now apply N.ones_spec_low.
  - now apply N.ones_spec_high.
Qed.

Lemma not64_spec x i : N.testbit (not64 x) i = xorb (N.testbit x i) (i <? 64).
Proof. unfold not64. rewrite N.lxor_spec, ones64, ones_spec. reflexivity. Qed.

Lemma not64_lt x : x < U64 -> not64 x < U64.
Proof.
  intros. rewrite U64_pow. apply testbit_lt. intros. rewrite not64_spec.
  rewrite (testbit_U64_high x) by auto. destruct (N.ltb_spec i 64); [lia|reflexivity].
Qed.

Lemma lowmask_ones n : n < 64 -> lowmask n = N.ones n.
Proof.
  intros. unfold lowmask, shl64. rewrite N.shiftl_1_l, N.mod_small.
  - rewrite N.ones_equiv. lia.
  - rewrite U64_pow. apply N.pow_lt_mono_r; lia.
Qed.

Lemma lowmask_spec n i : n < 64 -> N.testbit (lowmask n) i = (i <? n).
Proof. intros. rewrite lowmask_ones by auto. apply ones_spec. Qed.

Lemma wrapmask_ones n : n <= 64 -> wrapmask n = N.ones n.
Proof.
  intros. unfold wrapmask. destruct (N.ltb_spec n 64).
  - unfold shl64. rewrite N.shiftl_1_l, (N.mod_small (2 ^ n)).
    + assert (0 < 2 ^ n) by (apply N.neq_0_lt_0, N.pow_nonzero; lia).
      assert (2 ^ n < 2 ^ 64) by (apply N.pow_lt_mono_r; lia). change (2 ^ 64) with U64 in *.
      replace (2 ^ n + (U64 - 1)) with ((2 ^ n - 1) + 1 * U64) by (unfold U64; lia).
      rewrite N.mod_add by discriminate. rewrite N.mod_small by lia. rewrite N.ones_equiv. lia.
    + rewrite U64_pow. apply N.pow_lt_mono_r; lia.
  - replace n with 64 by lia. reflexivity.
Qed.

Lemma wrapmask_spec n i : n <= 64 -> N.testbit (wrapmask n) i = (i <? n).
Proof. intros. rewrite wrapmask_ones by auto. apply ones_spec. Qed.

Lemma lor_lt a b : a < U64 -> b < U64 -> N.lor a b < U64.
Proof.
  intros. rewrite U64_pow. apply testbit_lt. intros. rewrite N.lor_spec.
  now rewrite !testbit_U64_high.
Qed.
Lemma land_lt a b : a < U64 -> N.land a b < U64.
Proof.
  intros. rewrite U64_pow. apply testbit_lt. intros. rewrite N.land_spec.
  now rewrite (testbit_U64_high a).
Qed.
Lemma lxor_lt a b : a < U64 -> b < U64 -> N.lxor a b < U64.
Proof.
  intros. rewrite U64_pow. apply testbit_lt. intros. rewrite N.lxor_spec.
  now rewrite !testbit_U64_high.
Qed.
Lemma shiftr_lt a n : a < U64 -> N.shiftr a n < U64.
Proof.
  intros. rewrite N.shiftr_div_pow2. apply N.le_lt_trans with a; auto.
  apply N.div_le_upper_bound; [apply N.pow_nonzero; lia|].
  assert (0 < 2 ^ n) by (apply N.neq_0_lt_0, N.pow_nonzero; lia). nia.
Qed.

Lemma land_1 x : N.land x 1 = bitN (N.testbit x 0).
Proof.
  change 1 with (N.ones 1). rewrite N.land_ones. rewrite N.bit0_odd. unfold bitN.
  change (2 ^ 1) with 2. now rewrite <- N.bit0_mod, N.bit0_odd.
Qed.

Lemma shiftr_land_1 x n : N.land (N.shiftr x n) 1 = bitN (N.testbit x n).
Proof. rewrite land_1, N.shiftr_spec'. reflexivity. Qed.

Lemma mod2_bit x : x mod 2 = bitN (N.testbit x 0).
Proof. now rewrite <- N.bit0_mod. Qed.

(** ** popcount *)
Lemma pos_popcount_cnt p n : (Npos p < 2 ^ n) -> pos_popcount p = cnt (N.testbit (Npos p)) n.
Proof.
  revert n. induction p as [p IH|p IH|]; intros n H.
  - assert (n <> 0) by (intros ->; change (2 ^ 0) with 1 in H; lia).
    replace n with (1 + (n - 1)) by lia. rewrite cnt_add.
    change (cnt (N.testbit (N.pos p~1)) 1) with 1. cbn [pos_popcount]. f_equal.
    rewrite (IH (n - 1)).
    + apply cnt_ext. intros i _. rewrite N.add_comm.
      change (N.pos p~1) with (2 * N.pos p + 1). now rewrite (N.add_1_r i), N.testbit_odd_succ by lia.
    + replace n with (N.succ (n - 1)) in H by lia. rewrite N.pow_succ_r' in H. lia.
  - assert (n <> 0) by (intros ->; change (2 ^ 0) with 1 in H; lia).
    replace n with (1 + (n - 1)) by lia. rewrite cnt_add.
    change (cnt (N.testbit (N.pos p~0)) 1) with 0. cbn [pos_popcount]. rewrite N.add_0_l.
    rewrite (IH (n - 1)).
    + apply cnt_ext. intros i _. rewrite N.add_comm.
      change (N.pos p~0) with (2 * N.pos p). now rewrite N.add_1_r, N.testbit_even_succ by lia.
    + replace n with (N.succ (n - 1)) in H by lia. rewrite N.pow_succ_r' in H. lia.
  - assert (n <> 0) by (intros ->; change (2 ^ 0) with 1 in H; lia).
    replace n with (1 + (n - 1)) by lia. rewrite cnt_add. cbn [pos_popcount].
    change (cnt (N.testbit 1) 1) with 1.
    rewrite (cnt_ext _ (fun _ => false)), cnt_false; [reflexivity|].
    intros i _. rewrite testbit_1. lia.
Qed.

Lemma popcount_cnt w n : w < 2 ^ n -> popcount w = cnt (N.testbit w) n.
Proof.
  destruct w as [|p]; intros H.
  - rewrite (cnt_ext _ (fun _ => false)), cnt_false; [reflexivity|]. intros. apply N.bits_0.
  - now apply pos_popcount_cnt.
Qed.

Lemma popcount64 w : w < U64 -> popcount w = cnt (N.testbit w) 64.
Proof. intros. now apply popcount_cnt. Qed.

Lemma popcount_land_low w n : n <= 64 -> w < U64 -> popcount (N.land w (N.ones n)) = cnt (N.testbit w) n.
Proof.
  intros Hn Hw. rewrite (popcount_cnt _ n).
  - apply cnt_ext. intros i Hi. rewrite N.land_spec, ones_spec.
    destruct (N.ltb_spec i n); [|lia]. apply andb_true_r.
  - rewrite N.land_ones. apply N.mod_lt, N.pow_nonzero. lia.
Qed.

Lemma popcount_le64 w : w < U64 -> popcount w <= 64.
Proof. intros. rewrite popcount64 by auto. apply cnt_le. Qed.

(** ** value / lowbits *)
Lemma testbit_value l i : N.testbit (value l) i = nthN false l i.
Proof.
  revert i. induction l as [|b l IH]; intros i; cbn [value].
  - rewrite N.bits_0. unfold nthN. now destruct (N.to_nat i).
  - rewrite nthN_cons. destruct (N.eqb_spec i 0) as [->|Hi].
    + rewrite N.bit0_odd, N.odd_add_mul_2. now destruct b.
    + replace i with (N.succ (i - 1)) at 1 by lia. rewrite <- IH.
      destruct b; [rewrite (N.add_comm 1), N.testbit_odd_succ by lia|
                   rewrite N.add_0_l, N.testbit_even_succ by lia]; reflexivity.
Qed.

Lemma lenN_lowbits w n : lenN (lowbits w n) = n.
Proof. apply lenN_bools. Qed.
Lemma nthN_lowbits d w n i : i < n -> nthN d (lowbits w n) i = N.testbit w i.
Proof. apply nthN_bools. Qed.

Lemma value_bools f n w :
  (forall i, N.testbit w i = (i <? n) && f i) -> value (bools f n) = w.
Proof.
  intros H. apply N.bits_inj. intros i. rewrite testbit_value, H.
  destruct (N.ltb_spec i n).
  - now rewrite nthN_bools.
  - rewrite nthN_overflow; [reflexivity|]. now rewrite lenN_bools.
Qed.

Lemma value_lowbits w n : value (lowbits w n) = w mod 2 ^ n.
Proof.
  apply value_bools. intros i. destruct (N.ltb_spec i n); cbn.
  - now apply N.mod_pow2_bits_low.
  - now apply N.mod_pow2_bits_high.
Qed.

Lemma value_lt l : value l < 2 ^ lenN l.
Proof.
  apply testbit_lt. intros i Hi. rewrite testbit_value. now apply nthN_overflow.
Qed.

(** ** ctz *)
Lemma ctz64_0 : ctz64 0 = 64.
Proof. reflexivity. Qed.
Lemma pos_ctz_spec p :
  N.testbit (Npos p) (pos_ctz p) = true /\ forall i, i < pos_ctz p -> N.testbit (Npos p) i = false.
Proof.
  induction p as [p IH|p IH|]; cbn [pos_ctz]; try (split; [reflexivity|lia]).
  destruct IH as [H1 H2]. change (N.pos p~0) with (2 * N.pos p). split.
  - rewrite N.add_1_l, N.testbit_even_succ by lia. auto.
  - intros i Hi. destruct (N.eq_dec i 0) as [->|]; [reflexivity|].
    replace i with (N.succ (i - 1)) by lia. rewrite N.testbit_even_succ by lia. apply H2. lia.
Qed.
Lemma ctz64_spec w : w <> 0 ->
  N.testbit w (ctz64 w) = true /\ forall i, i < ctz64 w -> N.testbit w i = false.
Proof. destruct w; [congruence|]. intros _. apply pos_ctz_spec. Qed.
Lemma ctz64_lt w : w <> 0 -> w < U64 -> ctz64 w < 64.
Proof.
  intros H Hw. destruct (ctz64_spec w H) as [H1 _].
  destruct (N.lt_ge_cases (ctz64 w) 64) as [L|L]; auto.
  rewrite testbit_U64_high in H1; auto; discriminate.
Qed.
Lemma ctz64_unique w i : N.testbit w i = true -> (forall j, j < i -> N.testbit w j = false) -> ctz64 w = i.
Proof.
  intros Hi Hj. assert (w <> 0) by (intros ->; rewrite N.bits_0 in Hi; discriminate).
  destruct (ctz64_spec w H) as [H1 H2].
  destruct (N.lt_total (ctz64 w) i) as [L|[E|L]]; auto.
  - rewrite Hj in H1 by auto. discriminate.
  - rewrite H2 in Hi by auto. discriminate.
Qed.
