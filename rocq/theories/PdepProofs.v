(** * The software [pdep] finds the position of the k-th set bit. *)
From Verif Require Import Base Spec BaseFacts WordFacts RsVecModel.

Lemma testbit_pred m i : m <> 0 ->
  N.testbit (m - 1) i =
  if i <? ctz64 m then true else if i =? ctz64 m then false else N.testbit m i.
Proof.
  destruct m as [|p]; [congruence|]. intros _. cbn [ctz64]. revert i.
  induction p as [p IH|p IH|]; intros i; cbn [pos_ctz].
  - replace (N.pos p~1 - 1) with (2 * N.pos p) by lia.
    replace (N.pos p~1) with (2 * N.pos p + 1) by lia.
    destruct (N.ltb_spec i 0); [lia|]. destruct (N.eqb_spec i 0) as [->|].
    + apply N.testbit_even_0.
    + replace i with (N.succ (i - 1)) by lia.
      now rewrite N.testbit_even_succ, N.testbit_odd_succ by lia.
  - replace (N.pos p~0 - 1) with (2 * (N.pos p - 1) + 1) by lia.
    replace (N.pos p~0) with (2 * N.pos p) by lia.
    destruct (N.eq_dec i 0) as [->|].
    + rewrite N.testbit_odd_0. now destruct (N.ltb_spec 0 (1 + pos_ctz p)); [|lia].
    + replace i with (N.succ (i - 1)) by lia.
      rewrite N.testbit_even_succ, N.testbit_odd_succ, IH by lia.
      destruct (N.ltb_spec (i - 1) (pos_ctz p)), (N.ltb_spec (N.succ (i - 1)) (1 + pos_ctz p));
        try lia; auto.
      destruct (N.eqb_spec (i - 1) (pos_ctz p)), (N.eqb_spec (N.succ (i - 1)) (1 + pos_ctz p));
        try lia; auto.
  - change (1 - 1) with 0. rewrite N.bits_0.
    destruct (N.ltb_spec i 0); [lia|]. destruct (N.eqb_spec i 0) as [->|]; auto.
    rewrite testbit_1. symmetry. now apply N.eqb_neq.
Qed.

Lemma testbit_clear_low m i : m <> 0 ->
  N.testbit (N.land m (m - 1)) i = N.testbit m i && negb (i =? ctz64 m).
Proof.
  intros Hm. rewrite N.land_spec, testbit_pred by auto.
  destruct (ctz64_spec m Hm) as [H1 H2].
  destruct (N.ltb_spec i (ctz64 m)) as [L|L].
  - now rewrite H2.
  - destruct (N.eqb_spec i (ctz64 m)); cbn; auto.
    now destruct (N.testbit m i).
Qed.

Lemma neg_not x : 0 < x -> x < U64 -> (U64 - x) mod U64 = not64 (x - 1).
Proof.
  intros H1 H2. rewrite N.mod_small by lia.
  assert (E : N.lnot (x - 1) 64 = N.ones 64 - (x - 1)).
  { destruct (N.eq_dec (x - 1) 0) as [->|]; [reflexivity|].
    apply N.lnot_sub_low. apply N.log2_lt_pow2; [lia|]. rewrite <- U64_pow. lia. }
  unfold not64. rewrite ones64. unfold N.lnot in E. rewrite E, <- ones64. lia.
Qed.

Lemma testbit_low_bit m i : m <> 0 -> m < U64 ->
  N.testbit (N.land m ((U64 - m) mod U64)) i = (i =? ctz64 m).
Proof.
  intros Hm Hu. rewrite neg_not by lia. rewrite N.land_spec, not64_spec, testbit_pred by auto.
  destruct (ctz64_spec m Hm) as [H1 H2]. pose proof (ctz64_lt m Hm Hu) as H3.
  destruct (N.ltb_spec i (ctz64 m)) as [L|L].
  - rewrite H2 by auto. destruct (N.eqb_spec i (ctz64 m)); [lia|auto].
  - destruct (N.eqb_spec i (ctz64 m)) as [->|].
    + rewrite H1. now destruct (N.ltb_spec (ctz64 m) 64); [|lia].
    + destruct (N.ltb_spec i 64).
      * now destruct (N.testbit m i).
      * now rewrite testbit_U64_high.
Qed.

(** Removing the lowest set bit lowers all later ranks by one. *)
Lemma cnt_clear_low m n : m <> 0 -> ctz64 m < n ->
  cnt (N.testbit m) n = cnt (N.testbit (N.land m (m - 1))) n + 1.
Proof.
  intros Hm. destruct (ctz64_spec m Hm) as [H1 H2]. set (t := ctz64 m) in *.
  assert (E0 : cnt (N.testbit m) t = 0).
  { rewrite (cnt_ext _ (fun _ => false)) by auto. apply cnt_false. }
  assert (E0' : cnt (N.testbit (N.land m (m - 1))) t = 0).
  { rewrite (cnt_ext _ (fun _ => false)); [apply cnt_false|].
    intros i Hi. rewrite testbit_clear_low, H2 by auto. reflexivity. }
  induction n using N_ind1; [lia|]. intros L. rewrite !cnt_succ.
  rewrite testbit_clear_low by auto. fold t.
  destruct (N.eq_dec n t) as [->|].
  - rewrite E0, E0', H1, N.eqb_refl. reflexivity.
  - rewrite IHn by lia. replace (n =? t) with false by (symmetry; now apply N.eqb_neq).
    destruct (N.testbit m n); cbn; lia.
Qed.

Lemma testbit_pow2 k i : N.testbit (2 ^ k) i = (i =? k).
Proof. rewrite N.pow2_bits_eqb. apply N.eqb_sym. Qed.

Lemma land_pow2_neq a b : a <> b -> N.land (2 ^ a) (2 ^ b) = 0.
Proof.
  intros H. apply N.bits_inj. intros i. rewrite N.land_spec, !testbit_pow2, N.bits_0.
  destruct (N.eqb_spec i a), (N.eqb_spec i b); auto. lia.
Qed.

(** The deposit bit of the loop: [2^k], or 0 once it is shifted out. *)
Definition dep_bit (k : N) : N := if k <? 64 then 2 ^ k else 0.
Lemma dep_bit_succ k : (dep_bit k + dep_bit k) mod U64 = dep_bit (k + 1).
Proof.
  unfold dep_bit. destruct (N.ltb_spec k 64), (N.ltb_spec (k + 1) 64); try lia; try reflexivity.
  - rewrite N.mod_small; [rewrite N.pow_add_r; change (2 ^ 1) with 2; lia|].
    rewrite U64_pow. replace (2 ^ k + 2 ^ k) with (2 ^ (k + 1)).
    + apply N.pow_lt_mono_r; lia.
    + rewrite N.pow_add_r. change (2 ^ 1) with 2. lia.
  - replace k with 63 by lia. reflexivity.
Qed.
Lemma dep_bit_land r k : r < 64 -> negb (N.land (2 ^ r) (dep_bit k) =? 0) = (k =? r).
Proof.
  intros Hr. unfold dep_bit. destruct (N.eqb_spec k r) as [->|Hn].
  - destruct (N.ltb_spec r 64); [|lia]. rewrite N.land_diag.
    destruct (N.eqb_spec (2 ^ r) 0) as [E|]; auto.
    exfalso. revert E. apply N.pow_nonzero. lia.
  - destruct (N.ltb_spec k 64).
    + rewrite land_pow2_neq by auto. reflexivity.
    + now rewrite N.land_0_r.
Qed.

Lemma pdep_loop_after fuel r k mask res : r < 64 -> r < k -> mask < U64 ->
  cnt (N.testbit mask) 64 < N.of_nat fuel ->
  pdep_loop fuel (2 ^ r) mask (dep_bit k) res = Ok res.
Proof.
  revert k mask. induction fuel as [|fuel IH]; intros k mask Hr Hk Hm Hc; [lia|].
  cbn [pdep_loop]. destruct (N.eqb_spec mask 0) as [|Hn]; auto.
  rewrite dep_bit_land by auto. destruct (N.eqb_spec k r); [lia|].
  rewrite dep_bit_succ. apply IH; auto; try lia.
  - now apply land_lt.
  - pose proof (cnt_clear_low mask 64 Hn (ctz64_lt mask Hn Hm)). lia.
Qed.

Lemma pdep_loop_spec fuel r k mask j : r < 64 -> k <= r -> mask < U64 ->
  cnt (N.testbit mask) 64 < N.of_nat fuel ->
  N.testbit mask j = true -> cnt (N.testbit mask) j + k = r ->
  pdep_loop fuel (2 ^ r) mask (dep_bit k) 0 = Ok (2 ^ j).
Proof.
  revert k mask. induction fuel as [|fuel IH]; intros k mask Hr Hk Hm Hc Hj Hjc; [lia|].
  cbn [pdep_loop]. destruct (N.eqb_spec mask 0) as [->|Hn].
  { rewrite N.bits_0 in Hj. discriminate. }
  rewrite dep_bit_land, dep_bit_succ by auto.
  pose proof (ctz64_lt mask Hn Hm) as Ht. destruct (ctz64_spec mask Hn) as [H1 H2].
  pose proof (cnt_clear_low mask 64 Hn Ht) as Hc64.
  assert (E0 : cnt (N.testbit mask) (ctz64 mask) = 0).
  { rewrite (cnt_ext _ (fun _ => false)) by auto. apply cnt_false. }
  destruct (N.eqb_spec k r) as [->|Hkr].
  - rewrite pdep_loop_after; auto; try lia; [|now apply land_lt].
    f_equal. rewrite N.lor_0_l. apply N.bits_inj. intros i.
    rewrite testbit_low_bit, testbit_pow2 by auto. f_equal.
    apply (cnt_inj (N.testbit mask)); auto. lia.
  - assert (ctz64 mask < j).
    { destruct (N.lt_total (ctz64 mask) j) as [|[<-|L]]; auto; [lia|].
      rewrite H2 in Hj by auto. discriminate. }
    apply IH; auto; try lia.
    + now apply land_lt.
    + rewrite testbit_clear_low, Hj by auto. destruct (N.eqb_spec j (ctz64 mask)); [lia|auto].
    + pose proof (cnt_clear_low mask j Hn H). lia.
Qed.

Lemma ctz64_pow2 j : ctz64 (2 ^ j) = j.
Proof.
  apply ctz64_unique.
  - now rewrite testbit_pow2, N.eqb_refl.
  - intros i Hi. rewrite testbit_pow2. apply N.eqb_neq. lia.
Qed.

Lemma pdep_select_ok r mask j : mask < U64 -> N.testbit mask j = true ->
  cnt (N.testbit mask) j = r -> pdep_select r mask = Ok j.
Proof.
  intros Hm Hj Hc. unfold pdep_select, shl64_chk.
  assert (j < 64).
  { destruct (N.lt_ge_cases j 64); auto. rewrite testbit_U64_high in Hj; auto. discriminate. }
  pose proof (cnt_le (N.testbit mask) j). destruct (N.ltb_spec r 64); [|lia]. cbn [bind].
  replace (shl64 1 r) with (2 ^ r).
  2:{ apply N.bits_inj. intros i. now rewrite shl64_1_spec, testbit_pow2 by lia. }
  unfold pdep. change 1 with (dep_bit 0). rewrite (pdep_loop_spec _ r 0 mask j); auto; try lia.
  - cbn [bind]. now rewrite ctz64_pow2.
  - pose proof (cnt_le (N.testbit mask) 64). lia.
Qed.
