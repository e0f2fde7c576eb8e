(** * Model of trees/bp/lookup.rs (feature [bp_u16_lookup]) and its correctness.

    The module is compiled with 16-bit blocks; block width [w] and field width [m] of the table
    entries are parameters here (lookup.rs 9-12, 53-67). *)
From Verif Require Import Base Spec BaseFacts WordFacts BitVecModel BitVecProofs RsVecSelect BpModel BpExcess BpBlock.
Local Open Scope Z_scope.

Section Lookup.
Variables w m : N.

(** lookup.rs 117-126: branchless minimum and maximum on the signed block type. *)
Definition lt_min (a b : Z) : Z := b + Z.land (a - b) (- Z.shiftr ((a - b) mod 2 ^ Z.of_N w) (Z.of_N (w - 1))).
Definition lt_max (a b : Z) : Z := a - Z.land (a - b) (- Z.shiftr ((a - b) mod 2 ^ Z.of_N w) (Z.of_N (w - 1))).

(** lookup.rs 77-93: minimum, maximum and total excess of one block. *)
Definition lt_values (v : N) : res (Z * Z * Z) :=
  forM (range 0 w) (Z.of_N w + 1, - Z.of_N w - 1, 0) (fun '(mn, mx, total) i =>
    let total := if N.testbit v i then total + 1 else total - 1 in
    Ok (lt_min mn total, lt_max mx total, total)).
(** lookup.rs 95-98; the casts go from [i32] to [u16]. *)
Definition lt_encode (mn mx : Z) : N :=
  let field z := N.land (Z.to_N ((z + Z.of_N w) mod 2 ^ 16)) (N.ones m) in
  N.lor (N.shiftl (field mn) m) (field mx).
(** lookup.rs 69-104 *)
Definition lt_table : res (list N) :=
  forM (range 0 (2 ^ w)) (replicate (2 ^ w) 0%N) (fun tab v =>
    let* '(mn, mx, _) := lt_values v in set_idx tab v (lt_encode mn mx)).

(** lookup.rs 107-114 *)
Definition lt_minimum (e : N) : Z := Z.of_N (N.land (N.shiftr e m) (N.ones m)) - Z.of_N w.
Definition lt_maximum (e : N) : Z := Z.of_N (N.land e (N.ones m)) - Z.of_N w.

(** The loops of lookup.rs 154-161 and 180-187. *)
Definition lt_scan_fwd (block : N) (rel : Z) (i : N) : res (Z + N) :=
  let* rel := i64 (rel - (if N.testbit block i then 1 else -1)) in
  Ok (if rel =? 0 then inr i else inl rel).
Definition lt_scan_bwd (block : N) (rel : Z) (i : N) : res (Z + N) :=
  let* rel := i64 (rel + (if N.testbit block i then 1 else -1)) in
  Ok (if rel =? 0 then inr i else inl rel).
(** lookup.rs 147-168; leaving the loop is [unreachable!()]. *)
Definition lt_process_fwd (block : N) (rel : Z) : res (Z + N) :=
  let* tab := lt_table in
  let* e := idx tab block in
  if (rel <=? lt_maximum e) && (lt_minimum e <=? rel) then
    let* r := forM_ret (range 0 w) rel (lt_scan_fwd block) in
    match r with inr i => Ok (inr i) | inl _ => Panic end
  else let* rel' := i64 (rel - lookup_total_excess w block) in Ok (inl rel').
(** lookup.rs 171-194 *)
Definition lt_process_bwd (block : N) (rel : Z) : res (Z + N) :=
  let total := lookup_total_excess w block in
  let* sum := i64 (rel + total) in
  let* tab := lt_table in
  let* e := idx tab block in
  if (sum =? 0) || ((lt_minimum e <=? sum) && (sum <=? lt_maximum e)) then
    let* r := forM_ret (rev (range 0 w)) rel (lt_scan_bwd block) in
    match r with inr i => Ok (inr i) | inl _ => Panic end
  else Ok (inl sum).
End Lookup.
Definition lookup16 : lookup := mklookup 16 (lt_process_fwd 16 6) (lt_process_bwd 16 6).

(** ** Correctness *)
Section Proofs.
Variables w m : N.
Hypothesis Hw : (0 < w)%N.
Hypothesis Hm : Z.of_N (2 * w + 1) <= 2 ^ Z.of_N m.
Hypothesis Hm2 : (m <= 16)%N.
Hypothesis Hw2 : Z.of_N (2 * w + 1) < 2 ^ Z.of_N (w - 1).

Lemma sign_bit a : Z.abs a <= Z.of_N (2 * w + 1) -> - Z.shiftr (a mod 2 ^ Z.of_N w) (Z.of_N (w - 1)) = if a <? 0 then -1 else 0.
Proof.
  intros Ha. rewrite Z.shiftr_div_pow2 by lia. assert (Ep : 2 ^ Z.of_N w = 2 * 2 ^ Z.of_N (w - 1)) by (replace (Z.of_N w) with (Z.of_N (w - 1) + 1) by lia; rewrite Z.pow_add_r by lia; lia).
  set (P := 2 ^ Z.of_N (w - 1)) in *. destruct (Z.ltb_spec a 0) as [Hn|Hn].
  - rewrite <- (Z.mod_add a 1) by lia. rewrite Z.mod_small by lia. rewrite Ep. replace (a + 1 * (2 * P)) with (1 * P + (P + a)) by lia. rewrite Z.div_add_l by lia. rewrite Z.div_small by lia. lia.
  - rewrite Z.mod_small by lia. rewrite Z.div_small by lia. lia.
Qed.
Lemma lt_min_ok a b : Z.abs (a - b) <= Z.of_N (2 * w + 1) -> lt_min w a b = Z.min a b.
Proof. intros H. unfold lt_min. rewrite sign_bit by auto. destruct (Z.ltb_spec (a - b) 0); [rewrite Z.land_m1_r|rewrite Z.land_0_r]; lia. Qed.
Lemma lt_max_ok a b : Z.abs (a - b) <= Z.of_N (2 * w + 1) -> lt_max w a b = Z.max a b.
Proof. intros H. unfold lt_max. rewrite sign_bit by auto. destruct (Z.ltb_spec (a - b) 0); [rewrite Z.land_m1_r|rewrite Z.land_0_r]; lia. Qed.

(** [mn] and [mx] are the extreme excess values at positions [1..n]. *)
Definition extremes (b : list bool) (n : N) (mn mx : Z) : Prop :=
  (forall k, (1 <= k <= n)%N -> mn <= excess_before b k <= mx) /\
  ((exists k, (1 <= k <= n)%N /\ excess_before b k = mn) /\ (exists k, (1 <= k <= n)%N /\ excess_before b k = mx)).
Lemma lt_values_ok b : lenN b = w -> exists mn mx, lt_values w (value b) = Ok (mn, mx, excess_before b w) /\ extremes b w mn mx.
Proof.
  intros Hb. unfold lt_values.
  destruct (forM_range_inv (fun i '(mn, mx, total) => total = excess_before b i /\ ((i = 0%N /\ mn = Z.of_N w + 1 /\ mx = - Z.of_N w - 1) \/ extremes b i mn mx)) 0 w (Z.of_N w + 1, - Z.of_N w - 1, 0)
    (fun '(mn, mx, total) i => let total := if N.testbit (value b) i then total + 1 else total - 1 in Ok (lt_min w mn total, lt_max w mx total, total))) as ([[mn mx] total] & E & H).
  - lia.
  - split; [now rewrite ex_0|]. left. auto.
  - intros i [[mn mx] total] _ Hi [-> Hx]. eexists. split; [reflexivity|]. cbn beta iota zeta. rewrite testbit_value.
    assert (Es : (if nthN false b i then excess_before b i + 1 else excess_before b i - 1) = excess_before b (i + 1)) by (rewrite ex_succ by lia; unfold paren; destruct (nthN false b i); lia).
    rewrite Es. split; [reflexivity|]. right. pose proof (ex_bound b (i + 1)) as Hbd.
    destruct Hx as [(-> & -> & ->)|(H1 & (k1 & K1 & K2) & (k2 & K3 & K4))].
    + rewrite lt_min_ok, lt_max_ok by lia. change (0 + 1)%N with 1%N in *. split; [|split; exists 1%N; split; lia]. intros k Hk. assert (k = 1%N) by lia. subst k. lia.
    + pose proof (ex_bound b k1). pose proof (ex_bound b k2). rewrite lt_min_ok, lt_max_ok by lia. split.
      * intros k Hk. destruct (N.eq_dec k (i + 1)) as [->|]; [lia|]. specialize (H1 k ltac:(lia)). lia.
      * split; [destruct (Z.leb_spec mn (excess_before b (i + 1))); [exists k1|exists (i + 1)%N]; split; lia|destruct (Z.leb_spec mx (excess_before b (i + 1))); [exists (i + 1)%N|exists k2]; split; lia].
  - cbn beta iota in H. destruct H as [-> [(H & _)|H]]; [lia|]. exists mn, mx. auto.
Qed.
Lemma field_ok z : - Z.of_N w <= z <= Z.of_N w -> Z.of_N (N.land (Z.to_N ((z + Z.of_N w) mod 2 ^ 16)) (N.ones m)) = z + Z.of_N w /\ (N.land (Z.to_N ((z + Z.of_N w) mod 2 ^ 16)) (N.ones m) < 2 ^ m)%N.
Proof.
  intros Hz. assert (Hp : 2 ^ Z.of_N m <= 2 ^ 16) by (apply Z.pow_le_mono_r; lia). rewrite Z.mod_small by lia. rewrite N.land_ones.
  assert (Hc : Z.of_N (2 ^ m) = 2 ^ Z.of_N m) by (rewrite N2Z.inj_pow; reflexivity). rewrite N.mod_small; lia.
Qed.
Lemma encode_ok mn mx : - Z.of_N w <= mn <= Z.of_N w -> - Z.of_N w <= mx <= Z.of_N w -> lt_minimum w m (lt_encode w m mn mx) = mn /\ lt_maximum w m (lt_encode w m mn mx) = mx.
Proof.
  intros H1 H2. destruct (field_ok mn H1) as [F1 L1]. destruct (field_ok mx H2) as [F2 L2]. unfold lt_minimum, lt_maximum, lt_encode.
  set (x := N.land (Z.to_N ((mn + _) mod _)) _) in *. set (y := N.land (Z.to_N ((mx + _) mod _)) _) in *.
  assert (Ey : N.shiftr y m = 0%N) by (rewrite N.shiftr_div_pow2; apply N.div_small; auto).
  assert (Ex : N.land (N.shiftl x m) (N.ones m) = 0%N) by (rewrite N.land_ones, N.shiftl_mul_pow2; apply N.mod_mul; apply N.pow_nonzero; discriminate).
  rewrite N.shiftr_lor, Ey, N.lor_0_r, N.shiftr_shiftl_l, N.sub_diag, N.shiftl_0_r by lia. rewrite N.land_lor_distr_l, Ex, N.lor_0_l. rewrite !N.land_ones, !N.mod_small by auto. lia.
Qed.
Lemma lt_table_ok : exists tab, lt_table w m = Ok tab /\ lenN tab = (2 ^ w)%N /\
  forall b, lenN b = w -> extremes b w (lt_minimum w m (nthN 0%N tab (value b))) (lt_maximum w m (nthN 0%N tab (value b))).
Proof.
  unfold lt_table.
  destruct (forM_range_inv (fun v (tab : list N) => lenN tab = (2 ^ w)%N /\ forall b, lenN b = w -> (value b < v)%N -> extremes b w (lt_minimum w m (nthN 0%N tab (value b))) (lt_maximum w m (nthN 0%N tab (value b))))
    0 (2 ^ w) (replicate (2 ^ w) 0%N) (fun tab v => let* '(mn, mx, _) := lt_values w v in set_idx tab v (lt_encode w m mn mx))) as (tab & E & H1 & H2).
  - lia.
  - split; [apply lenN_replicate|]. intros; lia.
  - intros v tab _ Hv [Hl Hx]. assert (Ev : value (lowbits v w) = v) by (rewrite value_lowbits; now apply N.mod_small).
    destruct (lt_values_ok (lowbits v w) (lenN_lowbits v w)) as (mn & mx & Em & Hex). rewrite Ev in Em. rewrite Em. cbn [bind]. rewrite set_idx_ok by lia. eexists. split; [reflexivity|].
    split; [now rewrite lenN_set_nth|]. intros b Hb Hbv. destruct (N.eq_dec (value b) v) as [Eb|Nb].
    + assert (b = lowbits v w) by (rewrite <- Eb, <- Hb; symmetry; apply lowbits_of_value). subst b. rewrite Ev. rewrite nthN_set_nth by lia. rewrite N.eqb_refl.
      destruct Hex as (X1 & (k1 & K1 & K2) & (k2 & K3 & K4)). pose proof (ex_bound (lowbits v w) k1). pose proof (ex_bound (lowbits v w) k2).
      destruct (encode_ok mn mx) as [-> ->]; try lia. split; [auto|]. split; eauto.
    + rewrite nthN_set_nth by lia. destruct (N.eqb_spec (value b) v); [contradiction|]. apply Hx; auto. lia.
  - exists tab. split; [auto|]. split; [auto|]. intros b Hb. apply H2; auto. rewrite <- Hb. apply value_lt.
Qed.
Lemma total_ok b : lenN b = w -> lookup_total_excess w (value b) = excess_before b w.
Proof.
  intros Hb. unfold lookup_total_excess. assert (Hp : popcount (value b) = count true b).
  { rewrite (popcount_cnt (value b) w) by (rewrite <- Hb; apply value_lt). rewrite <- Hb. clear. induction b as [|x b IH] using rev_ind; [reflexivity|].
    rewrite lenN_app, count_app. change (lenN [x]) with 1%N. rewrite cnt_succ, testbit_value, nthN_app. destruct (N.ltb_spec (lenN b) (lenN b)); [lia|]. rewrite N.sub_diag. cbn [nthN]. change (nthN false [x] 0) with x.
    rewrite <- IH. f_equal; [apply cnt_ext; intros i Hi; rewrite !testbit_value, nthN_app; destruct (N.ltb_spec i (lenN b)); [reflexivity|lia]|destruct x; reflexivity]. }
  rewrite Hp. unfold excess_before. rewrite takeN_all by lia. pose proof (count_true_false b) as Hc. lia.
Qed.
Lemma reach b mn mx r : lenN b = w -> extremes b w mn mx -> mn <= r <= mx -> exists k, (1 <= k <= w)%N /\ excess_before b k = r.
Proof.
  intros Hb (H1 & (k1 & K1 & K2) & (k2 & K3 & K4)) Hr. destruct (N.leb_spec k1 k2).
  - destruct (ex_ivt b k1 (k2 - k1) (r - mn)) as (j & J1 & J2); replace (k1 + (k2 - k1))%N with k2 in * by lia; [lia|]. exists j. split; lia.
  - destruct (ex_ivt b k2 (k1 - k2) (r - mx)) as (j & J1 & J2); replace (k2 + (k1 - k2))%N with k1 in * by lia; [lia|]. exists j. split; lia.
Qed.
Lemma lt_fwd_ok b rel : lenN b = w -> Z.abs (rel - excess_before b (lenN b)) <= 9223372036854775807 -> fwd_answer b rel (lt_process_fwd w m (value b) rel).
Proof.
  intros Hb Hr. destruct lt_table_ok as (tab & Et & Hl & Hx). unfold lt_process_fwd. rewrite Et. cbn [bind]. rewrite (idx_ok 0%N) by (rewrite Hl, <- Hb; apply value_lt). cbn [bind].
  specialize (Hx b Hb). set (e := nthN 0%N tab (value b)) in *. rewrite total_ok by auto. rewrite Hb in Hr.
  destruct (Z.leb_spec rel (lt_maximum w m e)) as [L1|L1], (Z.leb_spec (lt_minimum w m e) rel) as [L2|L2]; cbn [andb];
    try (right; rewrite i64_ok by auto; cbn [bind]; rewrite Hb; split; [reflexivity|]; intros j Hj; destruct Hx as [Hx _]; specialize (Hx (j + 1)%N ltac:(lia)); lia).
  left. destruct (reach b _ _ rel Hb Hx ltac:(lia)) as (k & K1 & K2). pose proof (ex_bound b k) as Kb.
  destruct (forM_ret_range_inv (fun i (s : Z) => s = rel - excess_before b i /\ forall j, (j < i)%N -> excess_before b (j + 1) <> rel)
    (fun i => (i < w)%N /\ excess_before b (i + 1) = rel /\ forall j, (j < i)%N -> excess_before b (j + 1) <> rel) 0 w rel (lt_scan_fwd (value b))) as [(s & Es & -> & Hn)|(r & Er & R1 & R2 & R3)].
  - lia.
  - rewrite ex_0. split; [lia|]. intros; lia.
  - intros i s _ Hi [-> Hn]. unfold lt_scan_fwd. rewrite testbit_value. pose proof (ex_bound b i) as Hbi. assert (Es : rel - excess_before b i - (if nthN false b i then 1 else -1) = rel - excess_before b (i + 1)) by (rewrite ex_succ by lia; unfold paren; destruct (nthN false b i); lia). rewrite Es. pose proof (ex_bound b (i + 1)).
    rewrite i64_ok by (assert ((k <= w)%N) by lia; assert (Z.of_N w < 2 ^ 16) by (assert (2 ^ Z.of_N m <= 2 ^ 16) by (apply Z.pow_le_mono_r; lia); lia); lia). cbn [bind].
    destruct (Z.eqb_spec (rel - excess_before b (i + 1)) 0) as [E0|E0].
    + right. exists i. split; [reflexivity|]. split; [auto|]. split; [lia|auto].
    + left. eexists. split; [reflexivity|]. split; [reflexivity|]. intros j Hj. destruct (N.eq_dec j i) as [->|]; [lia|]. apply Hn. lia.
  - exfalso. apply (Hn (k - 1)%N); [lia|]. now replace (k - 1 + 1)%N with k by lia.
  - exists r. rewrite Er. cbn [bind]. rewrite Hb. auto.
Qed.
Lemma lt_bwd_ok b rel : lenN b = w -> rel <> 0 -> Z.abs (rel + excess_before b (lenN b)) <= 9223372036854775807 -> bwd_answer b rel (lt_process_bwd w m (value b) rel).
Proof.
  intros Hb Hne Hr. destruct lt_table_ok as (tab & Et & Hl & Hx). unfold lt_process_bwd. rewrite total_ok by auto. rewrite Hb in Hr. rewrite i64_ok by auto. cbn [bind]. rewrite Et. cbn [bind]. rewrite (idx_ok 0%N) by (rewrite Hl, <- Hb; apply value_lt). cbn [bind].
  specialize (Hx b Hb). set (e := nthN 0%N tab (value b)) in *. unfold bwd_answer. rewrite Hb. set (T := rel + excess_before b w) in *.
  destruct ((T =? 0) || ((lt_minimum w m e <=? T) && (T <=? lt_maximum w m e))) eqn:Ec.
  - left. assert (Hk : exists k, (k < w)%N /\ excess_before b k = T).
    { destruct (Z.eqb_spec T 0) as [E0|E0]; [exists 0%N; rewrite ex_0; split; lia|]. cbn [orb] in Ec. apply andb_prop in Ec as [C1 C2]. apply Z.leb_le in C1, C2.
      destruct (reach b _ _ T Hb Hx ltac:(lia)) as (k & K1 & K2). exists k. split; [|auto]. destruct (N.eq_dec k w) as [->|]; [|lia]. exfalso. unfold T in K2. lia. }
    destruct Hk as (k & K1 & K2). pose proof (ex_bound b k) as Kb. pose proof (ex_bound b w) as Wb.
    destruct (forM_ret_rev_range_inv (fun i (s : Z) => s = T - excess_before b i /\ forall j, (i <= j)%N -> (j < w)%N -> excess_before b j <> T)
      (fun i => (i < w)%N /\ excess_before b i = T /\ forall j, (i < j < w)%N -> excess_before b j <> T) 0 w rel (lt_scan_bwd (value b))) as [(s & Es & -> & Hn)|(r & Er & R1 & R2 & R3)].
    + lia.
    + split; [unfold T; lia|]. intros; lia.
    + intros i s _ Hi [-> Hn]. unfold lt_scan_bwd. rewrite testbit_value. pose proof (ex_bound b i) as Hbi. assert (Es : T - excess_before b (i + 1) + (if nthN false b i then 1 else -1) = T - excess_before b i) by (rewrite ex_succ by lia; unfold paren; destruct (nthN false b i); lia). rewrite Es.
      rewrite i64_ok by (assert (Z.of_N w < 2 ^ 16) by (assert (2 ^ Z.of_N m <= 2 ^ 16) by (apply Z.pow_le_mono_r; lia); lia); lia). cbn [bind].
      destruct (Z.eqb_spec (T - excess_before b i) 0) as [E0|E0].
      * right. exists i. split; [reflexivity|]. split; [auto|]. split; [lia|]. intros j Hj. apply Hn; lia.
      * left. eexists. split; [reflexivity|]. split; [reflexivity|]. intros j Hj1 Hj2. destruct (N.eq_dec j i) as [->|]; [lia|]. apply Hn; lia.
    + exfalso. apply (Hn k); auto. lia.
    + exists r. rewrite Er. cbn [bind]. auto.
  - right. split; [reflexivity|]. intros j Hj Ej. apply Bool.orb_false_elim in Ec as [C1 C2]. apply Z.eqb_neq in C1. destruct (N.eq_dec j 0) as [->|]; [rewrite ex_0 in Ej; lia|].
    destruct Hx as [Hx _]. specialize (Hx j ltac:(lia)). rewrite Ej in Hx. destruct (Z.leb_spec (lt_minimum w m e) T); [|lia]. destruct (Z.leb_spec T (lt_maximum w m e)); [|lia]. discriminate.
Qed.
End Proofs.

Lemma lookup16_ok : lookup_ok lookup16.
Proof.
  split; cbn [lookup16 lk_size lk_fwd lk_bwd].
  - reflexivity.
  - discriminate.
  - intros b rel Hb Hr. apply lt_fwd_ok; auto; try reflexivity; try discriminate.
  - intros b rel Hb Hn Hr. apply lt_bwd_ok; auto; try reflexivity; try discriminate.
Qed.
