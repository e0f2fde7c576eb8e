(** * Wavelet matrix construction by counting prefixes. *)
From Verif Require Import Base Spec BaseFacts WordFacts BitVecModel BitVecProofs BitVecProofs2 RsVecModel RsVecProofs IterFacts WaveletModel WaveletProofs WaveletBuild.

Lemma range_succ a b : a <= b -> range a (b + 1) = range a b ++ [b].
Proof. intros H. rewrite range_snoc by lia. now replace (b + 1 - 1) with b by lia. Qed.
Lemma value_app l m : value (l ++ m) = value l + 2 ^ lenN l * value m.
Proof. induction l as [|b l IH]; cbn [app value]; [change (lenN (@nil bool)) with 0; cbn [N.pow]; lia|]. rewrite IH, lenN_cons', N.pow_add_r. lia. Qed.
Lemma filter_filter' {A} (f g : A -> bool) l : filter f (filter g l) = filter (fun x => g x && f x) l.
Proof. induction l as [|x l IH]; cbn [filter]; [reflexivity|]. destruct (g x); cbn [filter andb]; [destruct (f x)|]; now rewrite IH. Qed.
Lemma filter_concat {A} (f : A -> bool) l : filter f (concat l) = concat (map (filter f) l).
Proof. induction l as [|x l IH]; cbn [concat map]; [reflexivity|]. now rewrite filter_app, IH. Qed.
Lemma forM_rev_range {S} (P : N -> S -> Prop) a b s f : a <= b -> P b s ->
  (forall i s, a <= i -> i < b -> P (i + 1) s -> exists s', f s i = Ok s' /\ P i s') ->
  exists s', forM (rev (range a b)) s f = Ok s' /\ P a s'.
Proof.
  intros Hab. remember (N.to_nat (b - a)) as m eqn:Hm. revert b s Hab Hm. induction m as [|m IH]; intros b s Hab Hm HP Hf.
  - assert (b = a) by lia. subst b. rewrite range_nil by lia. exists s. auto.
  - replace b with (b - 1 + 1) by lia. rewrite range_succ by lia. rewrite rev_app_distr. cbn [rev app forM].
    destruct (Hf (b - 1) s) as (s1 & E & H1); [lia|lia|now replace (b - 1 + 1) with b by lia|]. rewrite E. cbn [bind].
    apply IH; [lia|lia|auto|]. intros i st Hi Hi2. apply Hf; lia.
Qed.

(** ** Reversing bits. *)
Lemma reverse_bits_bit x i : i < 64 -> N.testbit (reverse_bits64 x) i = N.testbit x (63 - i).
Proof.
  intros Hi. unfold reverse_bits64.
  assert (H : forall m, m <= 64 -> forall i, N.testbit (fold_left (fun acc i => 2 * acc + N.land (N.shiftr x i) 1) (range 0 m) 0) i =
     (i <? m) && N.testbit x (m - 1 - i)).
  { intros m. pattern m. apply N_ind1; clear m; [intros _ j; rewrite range_nil by lia; cbn [fold_left]; rewrite N.bits_0; destruct (N.ltb_spec j 0); [lia|reflexivity]|].
    intros m IH Hm j. rewrite range_succ by lia. rewrite fold_left_app. cbn [fold_left].
    rewrite land_1, N.shiftr_spec by lia. rewrite N.add_0_l. set (acc := fold_left _ _ _) in *.
    destruct (N.eq_dec j 0) as [->|Hj].
    - destruct (N.testbit x m) eqn:E; cbn [bitN]; rewrite ?N.testbit_odd_0, ?N.add_0_r, ?N.testbit_even_0;
        (destruct (N.ltb_spec 0 (m + 1)); [|lia]); replace (m + 1 - 1 - 0) with m by lia; now rewrite E.
    - assert (Ej : N.testbit (2 * acc + bitN (N.testbit x m)) j = N.testbit acc (j - 1)).
      { replace j with (N.succ (j - 1)) at 1 by lia. destruct (N.testbit x m); cbn [bitN]; [apply N.testbit_odd_succ; lia|rewrite N.add_0_r; apply N.testbit_even_succ; lia]. }
      rewrite Ej, IH by lia. replace (m + 1 - 1 - j) with (m - 1 - (j - 1)) by lia.
      destruct (N.ltb_spec (j - 1) m), (N.ltb_spec j (m + 1)); try lia; reflexivity. }
  rewrite H by lia. destruct (N.ltb_spec i 64); [|lia]. reflexivity.
Qed.
Lemma reverse_bits_high x i : 64 <= i -> N.testbit (reverse_bits64 x) i = false.
Proof.
  intros Hi. apply (testbit_high _ 64); auto. unfold reverse_bits64.
  assert (H : forall m, fold_left (fun acc i => 2 * acc + N.land (N.shiftr x i) 1) (range 0 m) 0 < 2 ^ m).
  { intros m. pattern m. apply N_ind1; clear m; [reflexivity|]. intros m IH. rewrite range_succ by lia. rewrite fold_left_app. cbn [fold_left]. rewrite land_1, N.add_1_r, N.pow_succ_r'.
    destruct (N.testbit _ _); cbn [bitN]; lia. }
  apply H.
Qed.
Definition rv (m x : N) : N := N.shiftr (reverse_bits64 x) (64 - m).
Lemma rv_bit m x i : 1 <= m -> m <= 64 -> N.testbit (rv m x) i = (i <? m) && N.testbit x (m - 1 - i).
Proof.
  intros H1 H2. unfold rv. rewrite N.shiftr_spec by lia. destruct (N.ltb_spec i m).
  - rewrite reverse_bits_bit by lia. cbn [andb]. f_equal. lia.
  - apply reverse_bits_high. lia.
Qed.
Lemma bits_lt x m : (forall i, m <= i -> N.testbit x i = false) -> x < 2 ^ m.
Proof.
  intros H. destruct (N.eq_dec x 0) as [->|Hx]; [apply N.neq_0_lt_0; now apply N.pow_nonzero|].
  apply N.log2_lt_pow2; [lia|]. destruct (N.lt_ge_cases (N.log2 x) m); auto. specialize (H _ H0). rewrite N.bit_log2 in H by auto. discriminate.
Qed.
Lemma rv_lt m x : 1 <= m -> m <= 64 -> rv m x < 2 ^ m.
Proof. intros. apply bits_lt. intros i Hi. rewrite rv_bit by auto. destruct (N.ltb_spec i m); [lia|reflexivity]. Qed.
Lemma rv_rv m x : 1 <= m -> m <= 64 -> x < 2 ^ m -> rv m (rv m x) = x.
Proof.
  intros H1 H2 Hx. apply N.bits_inj. intros i. rewrite rv_bit by auto. destruct (N.ltb_spec i m); cbn [andb].
  - rewrite rv_bit by auto. destruct (N.ltb_spec (m - 1 - i) m); [|lia]. cbn [andb]. f_equal. lia.
  - symmetry. now apply (testbit_high _ m).
Qed.

(** ** Buckets. *)
Definition ct (f : N -> bool) (i : N) : N := lenN (filter f (range 0 i)).
Lemma ct_succ f i : ct f (i + 1) = ct f i + (if f i then 1 else 0).
Proof. unfold ct. rewrite range_succ by lia. rewrite filter_app, lenN_app'. cbn [filter]. now destruct (f i). Qed.
Lemma ct_mono f i j : i <= j -> ct f i <= ct f j.
Proof. intros H. unfold ct. rewrite (range_app 0 i j) by lia. rewrite filter_app, lenN_app'. lia. Qed.
Lemma ct_ext f g i : (forall j, f j = g j) -> ct f i = ct g i.
Proof. intros H. unfold ct. f_equal. now apply filter_ext. Qed.
Lemma ct_or f g h i : (forall j, j < i -> f j = g j || h j) -> (forall j, j < i -> g j && h j = false) -> ct f i = ct g i + ct h i.
Proof.
  apply (N_ind1 (fun i => (forall j, j < i -> f j = g j || h j) -> (forall j, j < i -> g j && h j = false) -> ct f i = ct g i + ct h i)); [reflexivity|].
  clear i. intros i IH H1 H2. rewrite !ct_succ, IH by (intros; (apply H1 || apply H2); lia). rewrite H1 by lia. specialize (H2 i ltac:(lia)). destruct (g i), (h i); cbn in *; try discriminate; lia.
Qed.

Section Buckets.
Variables (n : N) (key : N -> N).
Definition in_b (r p : N) : bool := key p =? r.
(** The elements with the keys [0..m-1], ordered by key. *)
Definition sorted_upto (m : N) : list N := concat (map (fun r => filter (in_b r) (range 0 n)) (range 0 m)).
Definition start (r : N) : N := lenN (sorted_upto r).
Lemma start_succ r : start (r + 1) = start r + ct (in_b r) n.
Proof using. unfold start, sorted_upto. rewrite range_succ by lia. rewrite map_app, concat_app, lenN_app'. cbn [map concat]. now rewrite app_nil_r. Qed.
Variable bit : N -> bool.
Definition bucket (i r : N) : list bool := map bit (filter (in_b r) (range 0 i)) ++ replicate (ct (in_b r) n - ct (in_b r) i) false.
Lemma lenN_bucket i r : i <= n -> lenN (bucket i r) = ct (in_b r) n.
Proof using. intros H. unfold bucket. rewrite lenN_app', lenN_map, lenN_replicate. fold (ct (in_b r) i). pose proof (ct_mono (in_b r) i n H). lia. Qed.
Definition buckets (i a b : N) : list bool := concat (map (bucket i) (range a b)).
Lemma lenN_buckets i r : i <= n -> lenN (buckets i 0 r) = start r.
Proof using.
  intros H. unfold buckets. apply (N_ind1 (fun r => lenN (concat (map (bucket i) (range 0 r))) = start r)); [reflexivity|].
  intros m IH. rewrite range_succ by lia. rewrite map_app, concat_app, lenN_app', start_succ, IH. cbn [map concat]. rewrite app_nil_r, lenN_bucket by auto. reflexivity.
Qed.
Lemma buckets_split i r m : r < m -> buckets i 0 m = buckets i 0 r ++ bucket i r ++ buckets i (r + 1) m.
Proof using. intros H. unfold buckets. rewrite (range_app 0 r m) by lia. rewrite map_app, concat_app. rewrite (range_cons r m) by lia. reflexivity. Qed.
Lemma bucket_other i r : key i <> r -> bucket (i + 1) r = bucket i r.
Proof using.
  intros H. unfold bucket. rewrite ct_succ, range_succ by lia. rewrite filter_app. cbn [filter]. replace (in_b r i) with false by (unfold in_b; now destruct (N.eqb_spec (key i) r)).
  now rewrite app_nil_r, N.add_0_r.
Qed.
Lemma buckets_other i a b : ~ (a <= key i < b) -> buckets (i + 1) a b = buckets i a b.
Proof using. intros H. unfold buckets. f_equal. apply map_ext_in. intros r Hr. apply In_range in Hr. apply bucket_other. lia. Qed.
Lemma buckets_step i m : i < n -> key i < m ->
  set_nth (buckets i 0 m) (N.to_nat (start (key i) + ct (in_b (key i)) i)) (bit i) = buckets (i + 1) 0 m.
Proof using.
  intros Hi Hm. rewrite !(buckets_split _ (key i) m) by auto. rewrite !(buckets_other i) by lia.
  assert (Hc : ct (in_b (key i)) (i + 1) <= ct (in_b (key i)) n) by (apply ct_mono; lia). rewrite ct_succ in Hc. assert (Eb : in_b (key i) i = true) by (unfold in_b; apply N.eqb_refl). rewrite Eb in Hc.
  unfold bucket. rewrite (replicate_cons (_ - ct _ i)) by lia. rewrite <- (lenN_buckets i) by lia.
  rewrite <- !(app_assoc (map bit _)). cbn [app]. rewrite !(app_assoc (buckets i 0 (key i))).
  replace (lenN (buckets i 0 (key i)) + ct (in_b (key i)) i) with (lenN (buckets i 0 (key i) ++ map bit (filter (in_b (key i)) (range 0 i)))) by (rewrite lenN_app', lenN_map; reflexivity).
  rewrite set_nth_app_mid. rewrite <- !app_assoc. rewrite ct_succ, range_succ by lia. rewrite filter_app, map_app. cbn [filter]. rewrite !Eb. cbn [map].
  rewrite <- !app_assoc. cbn [app]. do 4 f_equal. f_equal. lia.
Qed.
Lemma buckets_0 m : buckets 0 0 m = replicate (start m) false.
Proof using.
  unfold buckets. apply (N_ind1 (fun m => concat (map (bucket 0) (range 0 m)) = replicate (start m) false)); [reflexivity|].
  clear m. intros m IH. rewrite range_succ by lia. rewrite map_app, concat_app, IH, start_succ. cbn [map concat]. rewrite app_nil_r. unfold bucket. cbn [range map app filter].
  rewrite range_nil by lia. cbn [filter map app]. change (ct (in_b m) 0) with 0. rewrite N.sub_0_r. unfold replicate. rewrite N2Nat.inj_add. now rewrite repeat_app.
Qed.
Lemma buckets_n m : buckets n 0 m = map bit (sorted_upto m).
Proof using.
  unfold buckets, sorted_upto. rewrite concat_map, map_map. f_equal. apply map_ext. intros r. unfold bucket. rewrite N.sub_diag. cbn. apply app_nil_r.
Qed.
End Buckets.

Section Counting.
Variables (k n : N).
Variable B : N -> N -> bool.
Variable E : N -> N.
Hypothesis Hk1 : 1 <= k.
Hypothesis Hk2 : k <= 63.
Hypothesis HE : forall p j, N.testbit (E p) j = (j <? k) && B p j.

Local Notation lvl := (lvl k B).
Local Notation order := (order k n B).
Definition key (level p : N) : N := value (map (fun i => lvl i p) (range 0 level)).
Definition pref (level p : N) : N := N.shiftr (E p) (k - level).

Lemma key_bit level p i : N.testbit (key level p) i = (i <? level) && lvl i p.
Proof using Hk1 Hk2 HE.
  unfold key. rewrite testbit_value. destruct (N.ltb_spec i level).
  - rewrite (nthN_map _ 0) by (rewrite lenN_range; lia). now rewrite nthN_range, N.add_0_l by lia.
  - apply nthN_overflow. rewrite lenN_map, lenN_range. lia.
Qed.
Lemma pref_bit level p i : level <= k -> N.testbit (pref level p) i = (i <? level) && B p (i + (k - level)).
Proof using Hk1 Hk2 HE.
  intros H. unfold pref. rewrite N.shiftr_spec by lia. rewrite HE. destruct (N.ltb_spec i level), (N.ltb_spec (i + (k - level)) k); try lia; reflexivity.
Qed.
Lemma key_pref level p : 1 <= level -> level <= k -> rv level (pref level p) = key level p.
Proof using Hk1 Hk2 HE.
  intros H1 H2. apply N.bits_inj. intros i. rewrite rv_bit, key_bit by lia. destruct (N.ltb_spec i level); [|reflexivity]. cbn [andb].
  rewrite pref_bit by lia. destruct (N.ltb_spec (level - 1 - i) level); [|lia]. cbn [andb]. unfold WaveletBuild.lvl. f_equal. lia.
Qed.
Lemma pref_lt level p : level <= k -> pref level p < 2 ^ level.
Proof using Hk1 Hk2 HE. intros H. apply bits_lt. intros i Hi. rewrite pref_bit by auto. destruct (N.ltb_spec i level); [lia|reflexivity]. Qed.
Lemma key_lt level p : key level p < 2 ^ level.
Proof using Hk1 Hk2 HE. apply bits_lt. intros i Hi. rewrite key_bit. destruct (N.ltb_spec i level); [lia|reflexivity]. Qed.
Lemma pref_key_eq level p g : 1 <= level -> level <= k -> g < 2 ^ level -> (pref level p =? g) = (key level p =? rv level g).
Proof using Hk1 Hk2 HE.
  intros H1 H2 Hg. rewrite <- key_pref by auto. destruct (N.eqb_spec (pref level p) g) as [->|Hne]; [now rewrite N.eqb_refl|].
  destruct (N.eqb_spec (rv level (pref level p)) (rv level g)) as [He|]; [|reflexivity]. exfalso. apply Hne.
  rewrite <- (rv_rv level (pref level p)), <- (rv_rv level g), He by (auto using pref_lt; lia). reflexivity.
Qed.
Lemma key_succ level p : key (level + 1) p = key level p + 2 ^ level * bitN (lvl level p).
Proof using Hk1 Hk2 HE.
  unfold key. rewrite range_succ by lia. rewrite map_app. cbn [map]. rewrite value_app, lenN_map, lenN_range, N.sub_0_r. cbn [value]. unfold bitN. destruct (lvl level p); lia.
Qed.
Lemma order_sorted i : (N.of_nat i <= k) -> order i = sorted_upto n (key (N.of_nat i)) (2 ^ N.of_nat i).
Proof using Hk1 Hk2 HE.
  induction i as [|i IH]; intros Hi.
  - cbn [WaveletBuild.order N.of_nat]. unfold sorted_upto. change (2 ^ 0) with 1. change (range 0 1) with [0]. cbn [map concat]. rewrite app_nil_r.
    assert (F : forall l, filter (in_b (key 0) 0) l = l) by (intros l; induction l as [|x l IH]; cbn; [|rewrite IH]; reflexivity). symmetry. apply F.
  - cbn [WaveletBuild.order]. rewrite IH by lia. set (lv := N.of_nat i) in *. replace (N.of_nat (S i)) with (lv + 1) by lia.
    unfold next_order, sorted_upto. rewrite !filter_concat, !map_map.
    replace (2 ^ (lv + 1)) with (2 ^ lv + 2 ^ lv) by (rewrite N.add_1_r, N.pow_succ_r'; lia).
    rewrite (range_app 0 (2 ^ lv) (2 ^ lv + 2 ^ lv)) by lia. rewrite map_app, concat_app. f_equal; f_equal.
    + apply map_ext_in. intros r Hr. apply In_range in Hr. rewrite filter_filter'. apply filter_ext. intros p. unfold in_b. rewrite key_succ.
      pose proof (key_lt lv p). rewrite andb_comm. destruct (lvl lv p); cbn [negb bitN andb]; [destruct (N.eqb_spec (key lv p + 2 ^ lv * 1) r); [lia|reflexivity]|]. now rewrite N.mul_0_r, N.add_0_r.
    + apply list_ext with (d := []); [now rewrite !lenN_map, !lenN_range; lia|]. intros r Hr. rewrite lenN_map, lenN_range in Hr.
      rewrite !(nthN_map _ 0) by (rewrite lenN_range; lia). rewrite !nthN_range by lia. rewrite filter_filter'. apply filter_ext. intros p. unfold in_b. rewrite key_succ.
      pose proof (key_lt lv p). rewrite andb_comm. destruct (lvl lv p); cbn [negb bitN andb].
      * destruct (N.eqb_spec (key lv p) (0 + r)), (N.eqb_spec (key lv p + 2 ^ lv * 1) (2 ^ lv + r)); try lia; reflexivity.
      * destruct (N.eqb_spec (key lv p + 2 ^ lv * 0) (2 ^ lv + r)); [lia|reflexivity].
Qed.

(** Histogram of the prefixes of a level. *)
Definition hist_ok (level : N) (h : list N) : Prop :=
  lenN h = 2 ^ k /\ forall g, g < 2 ^ level -> nthN 0 h g = ct (fun p => pref level p =? g) n.

Lemma pow_le a b : a <= b -> 2 ^ a <= 2 ^ b.
Proof using Hk1 Hk2 HE. intros H. apply N.pow_le_mono_r; lia. Qed.
Lemma pref_half level p : level < k -> pref level p = pref (level + 1) p / 2.
Proof using Hk1 Hk2 HE.
  intros H. unfold pref. replace (k - level) with (k - (level + 1) + 1) by lia. rewrite <- N.shiftr_shiftr, N.shiftr_div_pow2. reflexivity.
Qed.
Lemma pc_combine_ok level h : 1 <= level -> level < k -> hist_ok (level + 1) h ->
  exists h', pc_combine level h = Ok h' /\ hist_ok level h'.
Proof using Hk1 Hk2 HE.
  intros H1 H2 [Hl Hh]. unfold pc_combine. pose proof (pow_le (level + 1) k ltac:(lia)) as Hp. rewrite N.add_1_r, N.pow_succ_r' in Hp.
  destruct (forM_range_inv (fun i h' => lenN h' = 2 ^ k /\ forall g, nthN 0 h' g =
      if g <? i then ct (fun p => pref level p =? g) n else nthN 0 h g) 0 (2 ^ level) h
    (fun histogram h0 => let* x := idx histogram (2 * h0) in let* y := idx histogram (2 * h0 + 1) in set_idx histogram h0 (x + y))) as (h' & Eh & Hl' & Hh'); [lia| | |].
  - split; [auto|]. intros g. destruct (N.ltb_spec g 0); [lia|reflexivity].
  - intros i h' _ Hi (Hl' & Hh'). rewrite !(idx_ok 0) by lia. cbn [bind]. unfold set_idx. destruct (N.ltb_spec i (lenN h')); [|lia].
    eexists. split; [reflexivity|]. split; [now rewrite lenN_set_nth|]. intros g. rewrite nthN_set_nth by auto.
    destruct (N.eqb_spec g i) as [->|Hg].
    + destruct (N.ltb_spec i (i + 1)); [|lia]. rewrite !Hh'. destruct (N.ltb_spec (2 * i) i), (N.ltb_spec (2 * i + 1) i); try lia.
      rewrite (Hh (2 * i)) by (rewrite N.add_1_r, N.pow_succ_r'; lia). rewrite (Hh (2 * i + 1)) by (rewrite (N.add_1_r level), N.pow_succ_r'; lia). symmetry. apply ct_or; intros j _; rewrite ?(pref_half level j) by auto;
        destruct (N.eqb_spec (pref (level + 1) j / 2) i), (N.eqb_spec (pref (level + 1) j) (2 * i)), (N.eqb_spec (pref (level + 1) j) (2 * i + 1)); try reflexivity; exfalso; dlia.
    + rewrite Hh'. destruct (N.ltb_spec g i), (N.ltb_spec g (i + 1)); try lia; reflexivity.
  - exists h'. split; [auto|]. split; [auto|]. intros g Hg. rewrite Hh'. destruct (N.ltb_spec g (2 ^ level)); [reflexivity|lia].
Qed.

Local Notation kstart level := (start n (key level)).
Lemma hist_key level h r : 1 <= level -> level <= k -> hist_ok level h -> r < 2 ^ level -> nthN 0 h (rv level r) = ct (in_b (key level) r) n.
Proof using Hk1 Hk2 HE.
  intros H1 H2 [Hl Hh] Hr. rewrite Hh by (apply rv_lt; lia). apply ct_ext. intros p. unfold in_b. rewrite pref_key_eq by (auto using rv_lt; try apply rv_lt; lia).
  now rewrite rv_rv by (auto; lia).
Qed.
Lemma pc_borders_ok level h b : 1 <= level -> level < k -> hist_ok level h -> lenN b = 2 ^ k ->
  exists b', pc_borders level h b = Ok b' /\ lenN b' = 2 ^ k /\ forall r, r < 2 ^ level -> nthN 0 b' (rv level r) = kstart level r.
Proof using Hk1 Hk2 HE.
  intros H1 H2 Hh Hb. unfold pc_borders. pose proof (pow_le level k ltac:(lia)) as Hp.
  assert (Hpos : 0 < 2 ^ level) by (apply N.neq_0_lt_0; now apply N.pow_nonzero).
  unfold set_idx at 1. destruct (N.ltb_spec 0 (lenN b)); [|lia]. cbn [bind].
  assert (E0 : rv level 0 = 0) by (apply N.bits_inj; intros i; rewrite rv_bit, !N.bits_0 by lia; apply andb_false_r).
  destruct (forM_range_inv (fun i b' => lenN b' = 2 ^ k /\ forall r, r < i -> nthN 0 b' (rv level r) = kstart level r) 1 (2 ^ level) (set_nth b (N.to_nat 0) 0)
     (fun borders h0 => let h_minus_1 := N.shiftr (reverse_bits64 (h0 - 1)) (64 - level) in
       let* b := idx borders h_minus_1 in let* x := idx h h_minus_1 in set_idx borders (N.shiftr (reverse_bits64 h0) (64 - level)) (b + x))) as (b' & Eb & Hl' & Hb'); [lia| | |].
  - split; [now rewrite lenN_set_nth|]. intros r Hr. assert (r = 0) by lia. subst r. rewrite E0, nthN_set_nth by auto. reflexivity.
  - intros i b' Hi1 Hi2 (Hl' & Hb'). cbn zeta. fold (rv level (i - 1)) (rv level i).
    assert (R1 : rv level (i - 1) < 2 ^ level) by (apply rv_lt; lia). assert (R2 : rv level i < 2 ^ level) by (apply rv_lt; lia).
    rewrite (idx_ok 0 b') by lia. rewrite (idx_ok 0 h) by (rewrite (proj1 Hh); lia). cbn [bind]. unfold set_idx. destruct (N.ltb_spec (rv level i) (lenN b')); [|lia].
    eexists. split; [reflexivity|]. split; [now rewrite lenN_set_nth|]. intros r Hr. rewrite nthN_set_nth by auto.
    destruct (N.eqb_spec (rv level r) (rv level i)) as [He|He].
    + assert (r = i) by (rewrite <- (rv_rv level r), He, rv_rv by lia; reflexivity). subst r. rewrite Hb' by lia. rewrite hist_key by (auto; lia).
      replace i with (i - 1 + 1) at 3 by lia. now rewrite start_succ.
    + apply Hb'. assert (r <> i) by congruence. lia.
  - exists b'. auto.
Qed.

Definition elems (lookup : N -> res N) : Prop := forall p, p < n -> lookup p = Ok (E p).
Lemma pc_place_ok look elem level b d : looks k n B look -> elems elem -> 1 <= level -> level < k -> lenN b = 2 ^ k ->
  (forall r, r < 2 ^ level -> nthN 0 b (rv level r) = kstart level r) -> good_bv d (replicate n false) ->
  exists b' d', pc_place k n look elem level b d = Ok (b', d') /\ lenN b' = 2 ^ k /\ good_bv d' (map (lvl level) (order (N.to_nat level))).
Proof using Hk1 Hk2 HE.
  intros Hlook Helem H1 H2 Hb Hst Hd. unfold pc_place. pose proof (pow_le level k ltac:(lia)) as Hp.
  assert (Hord : order (N.to_nat level) = sorted_upto n (key level) (2 ^ level)) by (rewrite order_sorted by lia; now rewrite N2Nat.id).
  assert (Hn : kstart level (2 ^ level) = n) by (unfold start; rewrite <- Hord; apply inside_order).
  destruct (forM_range_inv (fun i '(b', d') => lenN b' = 2 ^ k /\
       (forall r, r < 2 ^ level -> nthN 0 b' (rv level r) = kstart level r + ct (in_b (key level) r) i) /\
       good_bv d' (buckets n (key level) (lvl level) i 0 (2 ^ level))) 0 n (b, d)
     (fun '(borders, data) i => let* b := look i (k - level - 1) in let* e := elem i in let p := N.shiftr e (k - level) in
        let* pos := idx borders p in let* data := bv_set_unchecked data pos b in let* borders := incr borders p in Ok (borders, data))) as ([b' d'] & Eb & Hl' & Hb' & Hd'); [lia| | |].
  - split; [auto|]. split; [intros r Hr; rewrite Hst by auto; change (ct (in_b (key level) r) 0) with 0; lia|]. rewrite buckets_0, Hn. exact Hd.
  - intros i [b' d'] _ Hi (Hl' & Hb' & Hd'). rewrite Hlook by lia. rewrite Helem by auto. cbn [bind]. cbn zeta. fold (pref level i). fold (lvl level i).
    pose proof (pref_lt level i ltac:(lia)) as Hpl. pose proof (key_lt level i) as Hkl.
    assert (Epk : pref level i = rv level (key level i)) by (rewrite <- key_pref, rv_rv by (auto; lia); reflexivity).
    assert (Hpos : nthN 0 b' (pref level i) = kstart level (key level i) + ct (in_b (key level) (key level i)) i) by (rewrite Epk, Hb' by auto; reflexivity).
    rewrite (idx_ok 0) by lia. cbn [bind].
    destruct (gb_set d' _ (nthN 0 b' (pref level i)) (bitN (lvl level i)) Hd') as (d2 & E2 & G2).
    { rewrite lenN_buckets, Hn by lia. rewrite Hpos.
      assert (Hc : ct (in_b (key level) (key level i)) (i + 1) <= ct (in_b (key level) (key level i)) n) by (apply ct_mono; lia).
      rewrite ct_succ in Hc. unfold in_b at 2 in Hc. rewrite N.eqb_refl in Hc.
      pose proof (start_succ n (key level) (key level i)) as Hs.
      assert (Hm : kstart level (key level i + 1) <= kstart level (2 ^ level)).
      { unfold start, sorted_upto. rewrite (range_app 0 (key level i + 1) (2 ^ level)) by lia. rewrite map_app, concat_app, lenN_app'. lia. }
      lia. }
    rewrite E2. cbn [bind]. unfold incr. rewrite (idx_ok 0) by lia. cbn [bind]. unfold set_idx. destruct (N.ltb_spec (pref level i) (lenN b')); [|lia]. cbn [bind].
    eexists. split; [reflexivity|]. split; [now rewrite lenN_set_nth|]. split.
    + intros r Hr. rewrite nthN_set_nth by auto. rewrite ct_succ.
      assert (Eb : in_b (key level) r i = (pref level i =? rv level r)) by (rewrite pref_key_eq by (auto; try apply rv_lt; lia); now rewrite rv_rv by (auto; lia)).
      rewrite Eb, (N.eqb_sym (rv level r)).
      destruct (N.eqb_spec (pref level i) (rv level r)) as [He|He]; [|rewrite Hb' by auto; lia].
      assert (Er : r = key level i) by (rewrite <- (rv_rv level r), <- He, Epk by (auto; lia); rewrite rv_rv by (auto; lia); reflexivity).
      subst r. rewrite Hpos. lia.
    + rewrite Hpos in G2. replace (N.testbit (bitN (lvl level i)) 0) with (lvl level i) in G2 by (now destruct (lvl level i)).
      rewrite buckets_step in G2 by auto. exact G2.
  - exists b', d'. split; [auto|]. split; [auto|]. rewrite buckets_n in Hd'. now rewrite Hord.
Qed.

Lemma pc_first_ok look elem : looks k n B look -> elems elem ->
  exists h d, pc_first k n look elem (replicate (2 ^ k) 0) (replicate k (bv_from_zeros n)) = Ok (h, d) /\ hist_ok k h /\ lenN d = k /\
   good_bv (nthN bv_new d 0) (map (lvl 0) (range 0 n)) /\ forall i, 0 < i -> i < k -> nthN bv_new d i = bv_from_zeros n.
Proof using Hk1 Hk2 HE.
  intros Hlook Helem. unfold pc_first.
  destruct (forM_range_inv (fun i '(h, d) => lenN h = 2 ^ k /\ (forall g, g < 2 ^ k -> nthN 0 h g = ct (fun p => E p =? g) i) /\ lenN d = k /\
      good_bv (nthN bv_new d 0) (map (lvl 0) (range 0 i) ++ replicate (n - i) false) /\ (forall i, 0 < i -> i < k -> nthN bv_new d i = bv_from_zeros n))
     0 n (replicate (2 ^ k) 0, replicate k (bv_from_zeros n))
     (fun '(histogram, data) i => let* e := elem i in let* histogram := incr histogram e in let* sh := sub k 1 in let* b := look i sh in
        let* d := idx data 0 in let* d := bv_set_unchecked d i b in let* data := set_idx data 0 d in Ok (histogram, data))) as ([h d] & Eh & H1 & H2 & H3 & H4 & H5); [lia| | |].
  - split; [apply lenN_replicate|]. split; [intros g Hg; now rewrite nthN_replicate|].
    split; [apply lenN_replicate|]. split.
    + rewrite nthN_replicate by lia. rewrite N.sub_0_r. rewrite (range_nil 0 0) by lia. apply gb_zeros.
    + intros i Hi1 Hi2. now rewrite nthN_replicate.
  - intros i [h d] _ Hi (H1 & H2 & H3 & H4 & H5). rewrite Helem by auto. cbn [bind].
    assert (HEl : E i < 2 ^ k) by (apply bits_lt; intros j Hj; rewrite HE; destruct (N.ltb_spec j k); [lia|reflexivity]).
    unfold incr. rewrite (idx_ok 0) by lia. cbn [bind]. unfold set_idx at 1. destruct (N.ltb_spec (E i) (lenN h)); [|lia]. cbn [bind].
    rewrite (sub_ok k) by lia. cbn [bind]. rewrite Hlook by lia. cbn [bind]. rewrite (idx_ok bv_new) by lia. cbn [bind].
    rewrite (replicate_cons (n - i)) in H4 by lia.
    destruct (gb_set _ _ i (bitN (B i (k - 1))) H4) as (d2 & E2 & G2).
    { rewrite lenN_app', lenN_map, lenN_range, lenN_cons'. lia. }
    rewrite E2. cbn [bind]. unfold set_idx. destruct (N.ltb_spec 0 (lenN d)); [|lia]. cbn [bind].
    eexists. split; [reflexivity|]. split; [now rewrite lenN_set_nth|]. split; [|split; [now rewrite lenN_set_nth|split]].
    + intros g Hg. rewrite nthN_set_nth by auto. rewrite ct_succ, !H2 by auto. rewrite (N.eqb_sym (E i)). destruct (N.eqb_spec g (E i)) as [->|]; lia.
    + rewrite nthN_set_nth by auto. cbn [N.eqb]. 
      assert (Ei : i = lenN (map (lvl 0) (range 0 i))) by (rewrite lenN_map, lenN_range; lia).
      rewrite Ei in G2 at 3. rewrite set_nth_app_mid in G2. rewrite range_succ by lia. rewrite map_app, <- app_assoc. cbn [map app].
      replace (n - (i + 1)) with (n - i - 1) by lia. unfold WaveletBuild.lvl at 2. rewrite N.sub_0_r.
      replace (N.testbit (bitN (B i (k - 1))) 0) with (B i (k - 1)) in G2 by (now destruct (B i (k - 1))). exact G2.
    + intros j Hj1 Hj2. rewrite nthN_set_nth by auto. destruct (N.eqb_spec j 0); [lia|auto].
  - exists h, d. split; [auto|]. split; [|split; [auto|split; [|auto]]].
    + split; [auto|]. intros g Hg. rewrite H2 by auto. apply ct_ext. intros p. unfold pref. now rewrite N.sub_diag, N.shiftr_0_r.
    + rewrite N.sub_diag in H4. cbn [replicate N.to_nat repeat] in H4. now rewrite app_nil_r in H4.
Qed.

Lemma prefix_counting_ok look elem : looks k n B look -> elems elem ->
  exists datas, prefix_counting k n look elem = mapM rs_from_bit_vec datas /\ lenN datas = k /\ levels_ok k n B datas.
Proof using Hk1 Hk2 HE.
  intros Hlook Helem. unfold prefix_counting.
  assert (Es : shl64_chk 1 k = Ok (2 ^ k)).
  { unfold shl64_chk. destruct (N.ltb_spec k 64); [|lia]. f_equal. apply N.bits_inj. intros i. rewrite shl64_1_spec, N.pow2_bits_eqb by lia. apply N.eqb_sym. }
  rewrite Es. cbn [bind]. destruct (pc_first_ok look elem Hlook Helem) as (h & d & Ef & Hh & Hd & Hd0 & Hdz). rewrite Ef. cbn [bind].
  destruct (forM_rev_range (fun level '(h, b, d) => hist_ok level h /\ lenN b = 2 ^ k /\ lenN d = k /\ good_bv (nthN bv_new d 0) (map (lvl 0) (range 0 n)) /\
        (forall i, 0 < i -> i < level -> nthN bv_new d i = bv_from_zeros n) /\
        (forall i, level <= i -> i < k -> good_bv (nthN bv_new d i) (map (lvl i) (order (N.to_nat i))))) 1 k (h, replicate (2 ^ k) 0, d)
     (fun '(histogram, borders, data) level =>
      let* histogram := pc_combine level histogram in
      let* borders := pc_borders level histogram borders in
      let* d := idx data level in
      let* '(borders, d) := pc_place k n look elem level borders d in
      let* data := set_idx data level d in
      Ok (histogram, borders, data))) as ([[h' b'] d'] & El & G1 & G2 & G3 & G4 & G5 & G6); [lia| | |].
  - split; [auto|]. split; [apply lenN_replicate|]. split; [auto|]. split; [auto|]. split; [auto|]. intros; lia.
  - intros level [[h' b'] d'] H1 H2 (G1 & G2 & G3 & G4 & G5 & G6).
    destruct (pc_combine_ok level h' H1 H2 G1) as (h2 & E2 & Hh2). rewrite E2. cbn [bind].
    destruct (pc_borders_ok level h2 b' H1 H2 Hh2 G2) as (b2 & E3 & Hb2 & Hst). rewrite E3. cbn [bind].
    rewrite (idx_ok bv_new) by lia. cbn [bind]. rewrite (G5 level) by lia.
    destruct (pc_place_ok look elem level b2 (bv_from_zeros n) Hlook Helem H1 H2 Hb2 Hst (gb_zeros n)) as (b3 & d3 & E4 & Hb3 & Hd3). rewrite E4. cbn [bind].
    unfold set_idx. destruct (N.ltb_spec level (lenN d')); [|lia]. cbn [bind]. eexists. split; [reflexivity|].
    split; [auto|]. split; [auto|]. split; [now rewrite lenN_set_nth|]. split; [|split].
    + rewrite nthN_set_nth by auto. destruct (N.eqb_spec 0 level); [lia|auto].
    + intros i Hi1 Hi2. rewrite nthN_set_nth by auto. destruct (N.eqb_spec i level); [lia|]. apply G5; lia.
    + intros i Hi1 Hi2. rewrite nthN_set_nth by auto. destruct (N.eqb_spec i level) as [->|]; [exact Hd3|]. apply G6; lia.
  - rewrite El. cbn [bind]. exists d'. split; [reflexivity|]. split; [auto|]. intros i Hi.
    assert (En : nth i d' bv_new = nthN bv_new d' (N.of_nat i)) by (unfold nthN; now rewrite Nat2N.id). rewrite En.
    destruct i as [|i]; [exact G4|]. rewrite <- (Nat2N.id (S i)) at 3. apply G6; unfold lenN in G3; lia.
Qed.

(** The two constructions agree. *)
Theorem constructions_agree look elem : looks k n B look -> elems elem ->
  prefix_counting k n look elem = permutation_sorting k n look.
Proof using Hk1 Hk2 HE.
  intros Hlook Helem. destruct (prefix_counting_ok look elem Hlook Helem) as (d1 & E1 & L1 & O1).
  destruct (permutation_sorting_ok k n B look Hlook) as (d2 & E2 & L2 & O2).
  assert (Ed : d1 = d2).
  { apply nth_ext with (d := bv_new) (d' := bv_new); [unfold lenN in *; lia|]. intros i Hi. eapply gb_unique; [apply O1; auto|apply O2; unfold lenN in *; lia]. }
  now rewrite E1, E2, Ed.
Qed.
End Counting.
