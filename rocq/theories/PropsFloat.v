(** * C100 and C101: logarithms computed in double precision. *)
From Verif Require Import Base Spec BaseFacts WordFacts BitVecModel RsVecModel RsVecProofs EFModel EFProofs
  EFQuery PropsEF BpModel FloatModel.

Lemma bernoulli n j : n ^ j + j * n ^ (j - 1) <= (n + 1) ^ j.
Proof.
  induction j as [|j IH] using N_ind1; [cbn; lia|].
  replace (j + 1 - 1) with j by lia. rewrite N.add_1_r, !N.pow_succ_r'.
  destruct (N.eq_dec j 0) as [->|Hj]; [cbn; lia|].
  assert (E : n ^ j = n * n ^ (j - 1)).
  { replace j with (N.succ (j - 1)) at 1 by lia. apply N.pow_succ_r'. }
  nia.
Qed.

Lemma bernoulli_up n j : j <= n -> (n - j) * (n + 1) ^ j <= n * n ^ j.
Proof.
  induction j as [|j IH] using N_ind1; intros Hj; [rewrite !N.pow_0_r; lia|].
  specialize (IH ltac:(lia)). rewrite N.add_1_r, !N.pow_succ_r'.
  set (P := (n + 1) ^ j) in *. set (Q := n ^ j) in *.
  transitivity (n * ((n - j) * P)); [|nia].
  assert ((n - N.succ j) * (n + 1) <= n * (n - j)); [|nia].
  replace (n - N.succ j) with (n - j - 1) by lia. set (d := n - j) in *.
  assert (1 <= d <= n) by lia. replace ((d - 1) * (n + 1)) with (d * (n + 1) - (n + 1)) by nia. nia.
Qed.

(** ** Rounding an integer to 53 bits. *)
Lemma f64_of_exact n : n < 2 ^ 53 -> f64_of n = n.
Proof. intros H. unfold f64_of. destruct (N.ltb_spec n (2 ^ 53)); auto; lia. Qed.

Lemma f64_of_bounds n k : 2 ^ k <= n -> n <= 2 ^ (k + 1) -> 2 ^ k <= f64_of n <= 2 ^ (k + 1).
Proof.
  intros H1 H2. unfold f64_of. destruct (N.ltb_spec n (2 ^ 53)) as [|L]; [lia|].
  assert (Hn : 0 < n) by (pose proof (N.pow_nonzero 2 k ltac:(lia)); lia).
  assert (Hl : 53 <= N.log2 n) by (change 53 with (N.log2 (2 ^ 53)); now apply N.log2_le_mono).
  set (s := N.log2 n - 52). assert (P : 0 < 2 ^ s) by (apply N.neq_0_lt_0, N.pow_nonzero; lia).
  assert (Hlk : k <= N.log2 n) by (rewrite <- (N.log2_pow2 k) by lia; now apply N.log2_le_mono).
  assert (Hlk' : N.log2 n <= k + 1) by (rewrite <- (N.log2_pow2 (k + 1)) by lia; now apply N.log2_le_mono).
  destruct (N.log2_spec n Hn) as [Hlo Hhi].
  pose proof (N.div_mod n (2 ^ s) ltac:(lia)) as Ed. pose proof (N.mod_lt n (2 ^ s) ltac:(lia)) as Hr.
  set (q := n / 2 ^ s) in *. set (r := n mod 2 ^ s) in *.
  assert (Ek : 2 ^ k = 2 ^ (k - s) * 2 ^ s) by (rewrite <- N.pow_add_r; f_equal; lia).
  assert (Ek1 : 2 ^ (k + 1) = 2 ^ (k + 1 - s) * 2 ^ s) by (rewrite <- N.pow_add_r; f_equal; lia).
  rewrite Ek, Ek1 in *.
  set (A := 2 ^ (k - s)) in *. set (B := 2 ^ (k + 1 - s)) in *.
  assert (Hq : A <= q) by nia. assert (Hq' : q <= B) by nia.
  split.
  - transitivity (q * 2 ^ s); [nia|]. destruct (_ || _)%bool; nia.
  - destruct (N.eq_dec q B) as [Eq|Hne].
    + assert (r = 0) by nia. replace (2 ^ (s - 1) <? r) with false.
      2:{ symmetry. apply N.ltb_ge. lia. }
      destruct (N.eqb_spec (2 ^ (s - 1)) r) as [E|].
      { exfalso. pose proof (N.pow_nonzero 2 (s - 1) ltac:(lia)). lia. }
      cbn. nia.
    + transitivity ((q + 1) * 2 ^ s); [|nia]. destruct (_ || _)%bool; nia.
Qed.

(** ** The logarithm of an integral double. *)
Lemma grid_le x k : 2 ^ k <= x -> k <= 47 -> x < 2 ^ 48 -> 47 <= grid x.
Proof.
  intros H Hk Hx. unfold grid. assert (x <> 0) by (pose proof (N.pow_nonzero 2 k ltac:(lia)); lia).
  assert (N.log2 x < 48) by (apply N.log2_lt_pow2; lia).
  assert (N.log2 (N.log2 x) <= 5); [|lia].
  change 5 with (N.log2 47). apply N.log2_le_mono. lia.
Qed.

Lemma pow_pow a b c : (a ^ b) ^ c = a ^ (b * c).
Proof. symmetry. apply N.pow_mul_r. Qed.

Section Lg.
Variables (x a M : N).
Hypothesis HM : 0 < M.
Hypothesis Hlo : 2 ^ (a - 1) < x ^ M.
Hypothesis Hhi : x ^ M < 2 ^ (a + 1).

Lemma lg_ge k : 2 ^ k <= x -> k * M <= a.
Proof.
  intros H. assert (H1 : 2 ^ (k * M) < 2 ^ (a + 1)).
  { eapply N.le_lt_trans; [|exact Hhi]. rewrite <- pow_pow. now apply N.pow_le_mono_l. }
  apply N.pow_lt_mono_r_iff in H1; lia.
Qed.
Lemma lg_le k : x <= 2 ^ k -> a <= k * M.
Proof.
  intros H. assert (H1 : 2 ^ (a - 1) < 2 ^ (k * M)).
  { eapply N.lt_le_trans; [exact Hlo|]. rewrite <- pow_pow. now apply N.pow_le_mono_l. }
  apply N.pow_lt_mono_r_iff in H1; lia.
Qed.
(** Strictly above a power of two, if the grid is fine enough. *)
Lemma lg_gt k : 2 ^ k < x -> 2 ^ k <= M -> k * M < a.
Proof.
  intros H HkM. assert (H1 : 2 ^ (k * M + 1) < 2 ^ (a + 1)).
  { eapply N.le_lt_trans; [|exact Hhi]. transitivity ((2 ^ k + 1) ^ M); [|apply N.pow_le_mono_l; lia].
    etransitivity; [|apply bernoulli].
    assert (E : (2 ^ k) ^ M = 2 ^ k * (2 ^ k) ^ (M - 1)).
    { replace M with (N.succ (M - 1)) at 1 by lia. apply N.pow_succ_r'. }
    replace (2 ^ (k * M + 1)) with (2 * (2 ^ k) ^ M); [nia|].
    rewrite pow_pow, N.add_1_r, N.pow_succ_r'. reflexivity. }
  apply N.pow_lt_mono_r_iff in H1; lia.
Qed.
End Lg.

Lemma ceil_range a M k : 0 < M -> k * M <= a -> a <= (k + 1) * M ->
  k <= (a + (M - 1)) / M <= k + 1.
Proof.
  intros HM H1 H2. split.
  - apply N.div_le_lower_bound; lia.
  - enough ((a + (M - 1)) / M < k + 2) by lia. apply N.div_lt_upper_bound; nia.
Qed.
Lemma ceil_exact a M k : 0 < M -> k * M < a -> a <= (k + 1) * M -> (a + (M - 1)) / M = k + 1.
Proof.
  intros HM H1 H2. pose proof (ceil_range a M k HM ltac:(lia) H2).
  enough (k + 1 <= (a + (M - 1)) / M) by lia. apply N.div_le_lower_bound; nia.
Qed.
Lemma ceil_same k M : 0 < M -> (k * M + (M - 1)) / M = k.
Proof. intros HM. symmetry. apply (N.div_unique _ _ _ (M - 1)); nia. Qed.

Lemma pow2_pos k : 0 < 2 ^ k.
Proof. apply N.neq_0_lt_0, N.pow_nonzero. lia. Qed.

(** ** C100 *)
(** Between the two integers around the logarithm. *)
Theorem C100_between lg n : log2_within_ulp lg -> 1 <= n < 2 ^ 64 ->
  N.log2 n <= f64_log2_ceil lg n <= N.log2 n + 1.
Proof.
  intros [L1 L] Hn. unfold f64_log2_ceil. destruct (N.eq_dec n 1) as [->|Hn1].
  { rewrite f64_of_exact by reflexivity. rewrite L1. cbn [N.add]. rewrite N.div_small; [cbn; lia|].
    pose proof (pow2_pos (grid 1)). lia. }
  destruct (N.log2_spec n ltac:(lia)) as [Hlo Hhi]. rewrite <- N.add_1_r in Hhi.
  assert (Hk1 : 1 <= N.log2 n) by (change 1 with (N.log2 2); apply N.log2_le_mono; lia).
  assert (Hk2 : N.log2 n < 64) by (apply N.log2_lt_pow2; lia).
  destruct (f64_of_bounds n (N.log2 n) Hlo ltac:(lia)) as [F1 F2].
  set (x := f64_of n) in *. set (k := N.log2 n) in *.
  assert (G1 : 2 ^ 1 <= 2 ^ k) by (apply N.pow_le_mono_r; lia).
  assert (G2 : 2 ^ (k + 1) <= 2 ^ 64) by (apply N.pow_le_mono_r; lia).
  change (2 ^ 1) with 2 in G1.
  destruct (L x ltac:(lia)) as [A1 A2]. pose proof (pow2_pos (grid x)) as HM.
  set (M := 2 ^ grid x) in *. clearbody M.
  apply ceil_range; auto.
  - eapply lg_ge; eauto.
  - eapply lg_le; eauto.
Qed.

(** Exact on powers of two. *)
Theorem C100_pow2 lg k : log2_within_ulp lg -> k < 64 -> f64_log2_ceil lg (2 ^ k) = k.
Proof.
  intros [L1 L] Hk. unfold f64_log2_ceil.
  assert (E : f64_of (2 ^ k) = 2 ^ k).
  { unfold f64_of. destruct (N.ltb_spec (2 ^ k) (2 ^ 53)) as [|H]; auto.
    rewrite N.log2_pow2 by lia. assert (53 <= k) by (apply (N.pow_le_mono_r_iff 2); lia).
    set (s := k - 52). assert (Es : 2 ^ k = 2 ^ (k - s) * 2 ^ s) by (rewrite <- N.pow_add_r; f_equal; lia).
    pose proof (pow2_pos s). pose proof (pow2_pos (s - 1)).
    rewrite Es, N.div_mul, N.mod_mul by lia.
    destruct (N.ltb_spec (2 ^ (s - 1)) 0), (N.eqb_spec (2 ^ (s - 1)) 0); try lia. reflexivity. }
  rewrite E. destruct (N.eq_dec k 0) as [->|Hk0].
  { change (2 ^ 0) with 1. rewrite L1. cbn [N.add]. apply N.div_small. pose proof (pow2_pos (grid 1)). lia. }
  assert (G1 : 2 ^ 1 <= 2 ^ k) by (apply N.pow_le_mono_r; lia).
  assert (G2 : 2 ^ k <= 2 ^ 64) by (apply N.pow_le_mono_r; lia).
  change (2 ^ 1) with 2 in G1.
  destruct (L (2 ^ k) ltac:(lia)) as [A1 A2]. pose proof (pow2_pos (grid (2 ^ k))) as HM.
  set (M := 2 ^ grid (2 ^ k)) in *. clearbody M.
  assert (k * M <= lg (2 ^ k)) by (eapply lg_ge; eauto; lia).
  assert (lg (2 ^ k) <= k * M) by (eapply lg_le; eauto; lia).
  replace (lg (2 ^ k)) with (k * M) by lia. now apply ceil_same.
Qed.

(** Exact below 2^48. *)
Theorem C100_exact lg n : log2_within_ulp lg -> 1 <= n < 2 ^ 48 -> f64_log2_ceil lg n = N.log2_up n.
Proof.
  intros HL Hn. destruct (N.log2_spec n ltac:(lia)) as [Hlo Hhi]. rewrite <- N.add_1_r in Hhi.
  assert (Hk2 : N.log2 n < 48) by (apply N.log2_lt_pow2; lia).
  destruct (N.eq_dec n (2 ^ N.log2 n)) as [E|Hne].
  { rewrite E at 2. rewrite N.log2_up_pow2 by lia. rewrite E at 1. apply C100_pow2; auto. lia. }
  assert (Eu : N.log2_up n = N.log2 n + 1).
  { apply N.log2_up_unique; [lia|]. rewrite N.add_1_r, N.pred_succ, <- N.add_1_r. lia. }
  rewrite Eu. destruct HL as [L1 L]. unfold f64_log2_ceil.
  rewrite f64_of_exact by (assert (2 ^ 48 < 2 ^ 53) by reflexivity; lia).
  set (k := N.log2 n) in *. assert (Hk : k <= 47) by lia.
  pose proof (grid_le n k Hlo Hk ltac:(lia)) as HG.
  assert (H64 : 2 ^ 48 < 2 ^ 64) by reflexivity.
  assert (Hn2 : 2 <= n). { destruct (N.eq_dec n 1) as [->|]; [|lia]. exfalso. now apply Hne. }
  destruct (L n ltac:(lia)) as [A1 A2]. pose proof (pow2_pos (grid n)) as HM.
  assert (HkM : 2 ^ k <= 2 ^ grid n) by (apply N.pow_le_mono_r; lia).
  set (M := 2 ^ grid n) in *. clearbody M.
  apply ceil_exact; auto.
  - eapply lg_gt; eauto. lia.
  - eapply lg_le; eauto. lia.
Qed.

(** The assumption is met: by truncation, and by every correctly rounded [log2], which exists. *)
Lemma log2_exists : exists lg, log2_within_ulp lg.
Proof.
  exists (fun x => N.log2 (x ^ 2 ^ grid x)). split.
  { rewrite N.pow_1_l. reflexivity. }
  intros x Hx. pose proof (pow2_pos (grid x)) as HM. set (M := 2 ^ grid x) in *. clearbody M.
  assert (H1 : 2 ^ 1 <= x ^ M).
  { change (2 ^ 1) with 2. transitivity (2 ^ M).
    - change 2 with (2 ^ 1) at 1. apply N.pow_le_mono_r; lia.
    - apply N.pow_le_mono_l. lia. }
  change (2 ^ 1) with 2 in H1.
  destruct (N.log2_spec (x ^ M) ltac:(lia)) as [Hlo Hhi]. rewrite <- N.add_1_r in Hhi. split; auto.
  eapply N.lt_le_trans; [|exact Hlo]. apply N.pow_lt_mono_r; [lia|].
  assert (1 <= N.log2 (x ^ M)) by (change 1 with (N.log2 2); now apply N.log2_le_mono). lia.
Qed.
Lemma log2_nearest_exists : exists lg, log2_nearest lg.
Proof.
  exists (fun x => (N.log2 (x ^ 2 ^ (grid x + 1)) + 1) / 2). split.
  { rewrite N.pow_1_l. reflexivity. }
  intros x Hx. pose proof (pow2_pos (grid x + 1)) as HM. set (M := 2 ^ (grid x + 1)) in *. clearbody M.
  assert (H1 : 0 < x ^ M) by (apply N.neq_0_lt_0, N.pow_nonzero; lia).
  destruct (N.log2_spec (x ^ M) H1) as [Hlo Hhi]. set (b := N.log2 (x ^ M)) in *.
  pose proof (N.div_mod (b + 1) 2 ltac:(lia)) as E. pose proof (N.mod_lt (b + 1) 2 ltac:(lia)).
  set (a := (b + 1) / 2) in *. split.
  - etransitivity; [|exact Hlo]. apply N.pow_le_mono_r; lia.
  - etransitivity; [apply N.lt_le_incl, Hhi|]. apply N.pow_le_mono_r; lia.
Qed.
Lemma log2_nearest_within lg : log2_nearest lg -> log2_within_ulp lg.
Proof.
  intros [H1 H]. split; auto. intros x Hx. destruct (H x Hx) as [A1 A2].
  pose proof (pow2_pos (grid x)) as HM.
  assert (E : x ^ 2 ^ (grid x + 1) = x ^ 2 ^ grid x * x ^ 2 ^ grid x).
  { rewrite N.add_1_r, N.pow_succ_r', <- N.pow_add_r. f_equal. lia. }
  rewrite E in A1, A2. set (M := 2 ^ grid x) in *. clearbody M.
  assert (HX : 2 <= x ^ M).
  { transitivity (2 ^ M).
    - change 2 with (2 ^ 1) at 1. apply N.pow_le_mono_r; lia.
    - apply N.pow_le_mono_l. lia. }
  set (X := x ^ M) in *. clearbody X. set (a := lg x) in *. clearbody a.
  destruct (N.eq_dec a 0) as [->|Ha].
  { exfalso. change (2 ^ (2 * 0 + 1)) with 2 in A2. nia. }
  split.
  - assert (E1 : 2 ^ (2 * a - 1) = 2 * (2 ^ (a - 1) * 2 ^ (a - 1))).
    { rewrite <- N.pow_add_r, <- N.pow_succ_r'. f_equal. lia. }
    rewrite E1 in A1. pose proof (pow2_pos (a - 1)). nia.
  - assert (E1 : 2 * 2 ^ (2 * a + 1) = 2 ^ (a + 1) * 2 ^ (a + 1)).
    { rewrite <- N.pow_add_r, <- N.pow_succ_r'. f_equal. lia. }
    pose proof (pow2_pos (a + 1)). nia.
Qed.

(** From 2^49 on exactness is lost, however good the implementation of [log2] is: the logarithm of
    2^50 + 1 is closer to 50 than to the next double. *)
Lemma nearest_50 a M : 0 < M -> M = 2 ^ 48 ->
  2 ^ (2 * a - 1) <= (2 ^ 50 + 1) ^ M -> (2 ^ 50 + 1) ^ M <= 2 ^ (2 * a + 1) -> 2 * a = 50 * M.
Proof.
  intros HM EM A1 A2.
  assert (U : (2 ^ 50 + 1) ^ M < 2 ^ (50 * M + 1)).
  { pose proof (bernoulli_up (2 ^ 50) M) as H. assert (M <= 2 ^ 50) by (rewrite EM; discriminate).
    specialize (H ltac:(auto)). replace (2 ^ 50 - M) with (3 * 2 ^ 48) in H by (rewrite EM; reflexivity).
    rewrite pow_pow in H. rewrite (N.add_1_r (50 * M)), N.pow_succ_r'.
    pose proof (pow2_pos (50 * M)) as HP. set (P := 2 ^ (50 * M)) in *. clearbody P.
    set (X := (2 ^ 50 + 1) ^ M) in *. clearbody X. change (2 ^ 50) with (4 * 2 ^ 48) in H.
    set (c := 2 ^ 48) in *. assert (0 < c) by reflexivity. clearbody c. nia. }
  assert (D : 2 ^ (50 * M) < (2 ^ 50 + 1) ^ M).
  { rewrite <- pow_pow. apply N.pow_lt_mono_l; lia. }
  assert (B1 : 2 ^ (2 * a - 1) < 2 ^ (50 * M + 1)) by (eapply N.le_lt_trans; eauto).
  assert (B2 : 2 ^ (50 * M) < 2 ^ (2 * a + 1)) by (eapply N.lt_le_trans; eauto).
  clear A1 A2 U D. apply N.pow_lt_mono_r_iff in B1; [|lia]. apply N.pow_lt_mono_r_iff in B2; [|lia].
  assert (exists c, M = 2 * c) as [c ->] by (exists (2 ^ 47); rewrite EM; reflexivity). lia.
Qed.

Theorem C100_refuted : forall lg, log2_nearest lg ->
  f64_log2_ceil lg (2 ^ 50 + 1) = 50 /\ N.log2_up (2 ^ 50 + 1) = 51.
Proof.
  intros lg [_ H]. split; [|reflexivity]. unfold f64_log2_ceil.
  rewrite f64_of_exact by reflexivity. destruct (H (2 ^ 50 + 1)) as [A1 A2]; [split; discriminate|].
  assert (EG : grid (2 ^ 50 + 1) = 47) by reflexivity. rewrite EG in *. clear H EG.
  set (a := lg (2 ^ 50 + 1)) in *. clearbody a.
  assert (EM : exists M, 0 < M /\ M = 2 ^ (47 + 1)) by (exists (2 ^ 48); split; reflexivity).
  destruct EM as (M & HM & EM). rewrite <- EM in A1, A2.
  assert (E : 2 * a = 50 * M) by (eapply nearest_50; eauto).
  assert (Ea : a = 50 * 2 ^ 47).
  { rewrite EM in E. change (2 ^ (47 + 1)) with (2 * 2 ^ 47) in E. set (c := 2 ^ 47) in *. clearbody c. lia. }
  rewrite Ea. apply ceil_same. reflexivity.
Qed.

Example C100_ex lg : log2_within_ulp lg ->
  f64_log2_ceil lg 1000 = 10 /\ f64_log2_ceil lg 1024 = 10 /\ f64_log2_ceil lg 1025 = 11 /\
  f64_log2_ceil lg (2 ^ 47 + 1) = 48 /\ f64_log2_ceil lg (2 ^ 60) = 60 /\
  f64_of (2 ^ 60 + 129) = 2 ^ 60 + 256 /\ f64_of (2 ^ 60 + 128) = 2 ^ 60.
Proof.
  intros H. rewrite (C100_pow2 lg 60) by (auto; reflexivity).
  rewrite !(C100_exact lg) by (auto; (split; [discriminate|reflexivity])). vm_compute. auto 10.
Qed.

(** ** C101 *)
(** The width of [EliasFanoVec::from_slice]: the subtraction does not underflow, the assertion holds,
    construction succeeds with a linear upper part, and the width is the exact one for universes
    below 2^48. *)
Theorem C101_width lg data : log2_within_ulp lg ->
  nondecreasing data -> Forall (fun x => x < 2 ^ 64) data -> 0 < lenN data < 2 ^ 48 - 2 ->
  exists w e, ef_width_f64 lg data = Ok w /\ w < 64 /\ ef_from_slice w data = Ok e /\
    rlen (ef_upper e) <= 5 * lenN data + 2 /\
    (nthN 0 data (lenN data - 1) - nthN 0 data 0 < 2 ^ 48 -> w = ef_width data).
Proof.
  intros HL Hs Hd Hne.
  assert (Hlast : nthN 0 data (lenN data - 1) < 2 ^ 64).
  { rewrite Forall_forall in Hd. apply Hd, In_nthN. lia. }
  unfold ef_width_f64. set (bd := nthN 0 data (lenN data - 1) - nthN 0 data 0).
  assert (H48 : 2 ^ 48 < 2 ^ 64) by reflexivity. assert (H2 : 2 < 2 ^ 48) by reflexivity.
  rewrite (C100_exact lg (lenN data + 2)) by (auto; lia).
  rewrite (C100_exact lg (N.max (lenN data) 2)) by (auto; lia).
  pose proof (C100_between lg (N.max bd 2) HL ltac:(lia)) as HB.
  assert (Hl1 : 1 <= N.log2_up (N.max (lenN data) 2)).
  { change 1 with (N.log2_up 2). apply N.log2_up_le_mono. lia. }
  assert (Hl2 : N.log2_up (N.max (lenN data) 2) <= N.log2_up (lenN data + 2)).
  { apply N.log2_up_le_mono. lia. }
  assert (Hl3 : N.log2_up (lenN data + 2) <= 48).
  { change 48 with (N.log2_up (2 ^ 48)) at 1. apply N.log2_up_le_mono. lia. }
  assert (Hl4 : N.log2 (N.max bd 2) < 64) by (apply N.log2_lt_pow2; lia).
  set (L := f64_log2_ceil lg (N.max bd 2)) in *. set (u := N.log2_up (N.max (lenN data) 2)) in *.
  set (w := N.max L (N.log2_up (lenN data + 2)) - u).
  assert (Hw : w < 64) by lia.
  destruct (ef_from_slice_ok data w Hs Hd ltac:(lia) Hw) as (e & E & G).
  exists w, e. split; [apply sub_ok; lia|]. split; [exact Hw|]. split; [exact E|]. split.
  - destruct (eg_up _ _ _ G) as (bv & G1 & G2 & G3 & _). rewrite (good_len _ _ G2), G3.
    unfold eU, eW.
    assert (HD : bd / 2 ^ w <= 4 * lenN data); [|fold bd; lia].
    destruct (N.eq_dec (lenN data) 1) as [E1|E1].
    { unfold bd. rewrite E1, N.sub_diag, N.div_0_l; [lia|apply N.pow_nonzero; lia]. }
    destruct (N.log2_spec (N.max bd 2) ltac:(lia)) as [_ H5].
    assert (H6 : 2 ^ u < 2 * lenN data).
    { unfold u. replace (N.max (lenN data) 2) with (lenN data) by lia.
      destruct (N.log2_up_spec (lenN data)) as [H6 _]; [lia|].
      assert (H0 : 0 < N.log2_up (lenN data)) by (apply N.log2_up_pos; lia).
      replace (N.log2_up (lenN data)) with (N.succ (N.pred (N.log2_up (lenN data)))) by lia.
      rewrite N.pow_succ_r'. lia. }
    assert (H7 : bd <= 2 ^ w * (2 * 2 ^ u)).
    { rewrite <- N.pow_succ_r', <- N.pow_add_r.
      transitivity (2 ^ N.succ (N.log2 (N.max bd 2))); [lia|]. apply N.pow_le_mono_r; lia. }
    transitivity (2 * 2 ^ u); [|lia].
    apply N.div_le_upper_bound; [apply N.pow_nonzero; lia|exact H7].
  - intros Hbd. unfold ef_width. fold bd. unfold w, L. rewrite (C100_exact lg (N.max bd 2)) by (auto; lia).
    reflexivity.
Qed.

(** The number of inner nodes of the min-max tree is the one of the model, so all theorems about
    balanced parentheses trees hold for the code with fewer than 2^48 blocks. *)
Theorem C101_tree lg num_leaves : log2_within_ulp lg -> 1 <= num_leaves < 2 ^ 48 ->
  mmt_internal_f64 lg num_leaves = mmt_internal num_leaves.
Proof. intros HL H. unfold mmt_internal_f64, mmt_internal. now rewrite C100_exact. Qed.

(** Rounding changes the width for large universes: here the exact one is 50. *)
Theorem C101_visible lg : log2_nearest lg ->
  ef_width_f64 lg [0; 2 ^ 50 + 1] = Ok 49 /\ ef_width [0; 2 ^ 50 + 1] = 50.
Proof.
  intros H. split; [|reflexivity]. destruct (C100_refuted lg H) as [E _].
  assert (W := log2_nearest_within lg H). unfold ef_width_f64.
  change (lenN [0; 2 ^ 50 + 1]) with 2. change (nthN 0 [0; 2 ^ 50 + 1] (2 - 1)) with (2 ^ 50 + 1).
  change (nthN 0 [0; 2 ^ 50 + 1] 0) with 0. rewrite N.sub_0_r.
  change (N.max (2 ^ 50 + 1) 2) with (2 ^ 50 + 1). rewrite E.
  rewrite !(C100_exact lg) by (auto; (split; [discriminate|reflexivity])). reflexivity.
Qed.

Example C101_ex lg : log2_within_ulp lg ->
  ef_width_f64 lg ex_ef = Ok 4 /\ mmt_internal_f64 lg 5 = 7.
Proof.
  intros H. rewrite C101_tree by (auto; (split; [discriminate|reflexivity])). split; [|reflexivity].
  unfold ef_width_f64. rewrite !(C100_exact lg) by (auto; (split; [discriminate|reflexivity])). reflexivity.
Qed.
