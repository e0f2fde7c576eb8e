(** * Proofs about the [BitVec] model, part 2: split, pack, equality, hash, masks, edit programs. *)
From Verif Require Import Base Spec BaseFacts WordFacts BitVecModel BitVecProofs.

(** ** split_at *)
(** No bit is set at or above the length. *)
Definition zero_tail (bv : bitvec) : Prop :=
  forall i, blen bv <= i -> bit_at (bdata bv) i = false.

Lemma zero_tail_clean bv : zero_tail bv -> clean bv.
Proof.
  intros H j H0 H1 H2. specialize (H (64 * (blen bv / 64) + j) ltac:(dlia)).
  unfold bit_at in H. replace ((64 * (blen bv / 64) + j) / 64) with (blen bv / 64) in H by dlia.
  replace ((64 * (blen bv / 64) + j) mod 64) with j in H by dlia. auto.
Qed.

Lemma bit_at_over d i : 64 * lenN d <= i -> bit_at d i = false.
Proof. intros. unfold bit_at. rewrite nthN_overflow by dlia. apply N.bits_0. Qed.

Lemma append_unchecked_zero_tail bv w n bv' :
  wf bv -> zero_tail bv -> w < 2 ^ n -> 1 <= n -> n <= 64 ->
  bv_append_bits_unchecked bv w n = Ok bv' -> zero_tail bv'.
Proof.
  intros H Hz Hw H1 H64. pose proof (proj1 H) as Hl. unfold bv_append_bits_unchecked.
  destruct (N.eqb_spec (blen bv mod 64) 0) as [E|E].
  - intros [= <-] i Hi. cbn [bdata blen] in *. rewrite bit_at_app.
    destruct (N.ltb_spec (i / 64) (lenN (bdata bv))); [dlia|].
    destruct (N.lt_ge_cases (i - 64 * lenN (bdata bv)) 64) as [L|L].
    + rewrite bit_at_one by auto. apply testbit_high with (n := n); auto. dlia.
    + apply bit_at_over. cbn. lia.
  - assert (Hq : blen bv / 64 < lenN (bdata bv)) by (rewrite Hl; dlia).
    rewrite upd_limb_ok by auto. cbn [bind]. intros [= <-] i Hi. cbn [bdata blen] in *.
    assert (Hset : i / 64 <= blen bv / 64 ->
      bit_at (set_nth (bdata bv) (N.to_nat (blen bv / 64))
        (N.lor (nthN 0 (bdata bv) (blen bv / 64)) (shl64 w (blen bv mod 64)))) i = false).
    { intros Hi'. rewrite bit_at_set by auto.
      destruct (N.eqb_spec (i / 64) (blen bv / 64)) as [Ei|]; [|dlia].
      rewrite N.lor_spec, shl64_spec. rewrite (testbit_high w n) by (auto; dlia).
      rewrite andb_false_r, orb_false_r. specialize (Hz i ltac:(lia)). unfold bit_at in Hz.
      now rewrite Ei in Hz. }
    destruct (N.ltb_spec 64 (blen bv mod 64 + n)).
    + rewrite bit_at_app, lenN_set_nth. destruct (N.ltb_spec (i / 64) (lenN (bdata bv))).
      * apply Hset. dlia.
      * destruct (N.lt_ge_cases (i - 64 * lenN (bdata bv)) 64) as [L|L].
        -- rewrite bit_at_one by auto. rewrite N.shiftr_spec'. apply testbit_high with (n := n); auto. dlia.
        -- apply bit_at_over. cbn. lia.
    + destruct (N.le_gt_cases (i / 64) (blen bv / 64)); [now apply Hset|].
      apply bit_at_over. rewrite lenN_set_nth. dlia.
Qed.

Lemma lowbits_shiftr d p n :
  p mod 64 + n <= 64 ->
  lowbits (N.shiftr (nthN 0 d (p / 64)) (p mod 64)) n = bools (fun i => bit_at d (p + i)) n.
Proof.
  intros. apply bools_ext. intros i Hi. rewrite N.shiftr_spec'. unfold bit_at.
  f_equal; [f_equal|]; dlia.
Qed.

Lemma bits_drop bv n : n <= blen bv -> dropN n (bits bv) = bools (fun i => bit_at (bdata bv) (n + i)) (blen bv - n).
Proof. intros. unfold bits. now rewrite dropN_bools. Qed.

Lemma bv_new_zero_tail : zero_tail bv_new.
Proof. intros i _. apply bit_at_over. cbn. lia. Qed.

Lemma shiftr_pow_lt w a : w < U64 -> a <= 64 -> N.shiftr w a < 2 ^ (64 - a).
Proof.
  intros. apply testbit_lt. intros i Hi. rewrite N.shiftr_spec'. apply testbit_U64_high; auto. lia.
Qed.

Lemma bv_split_at_unchecked_ok bv p :
  wf bv -> p <= blen bv ->
  exists a b, bv_split_at_unchecked bv p = Ok (a, b) /\ wf a /\ wf b /\
              bits a = takeN p (bits bv) /\ bits b = dropN p (bits bv).
Proof.
  intros H Hp. pose proof H as [Hl Hw]. unfold bv_split_at_unchecked. rewrite sub_ok by auto. cbn [bind].
  destruct (N.eqb_spec (blen bv - p) 0) as [E|E].
  { exists bv, bv_new. repeat split; auto; try constructor.
    - rewrite takeN_all; auto. rewrite lenN_bits. lia.
    - rewrite dropN_all; auto. rewrite lenN_bits. lia. }
  match goal with |- exists a b, bind ?X _ = _ /\ _ => set (oth := X) end.
  assert (Ho : exists o, oth = Ok o /\ wf o /\ bits o = dropN p (bits bv)).
  { unfold oth. clear oth. rewrite bits_drop by auto. set (f := fun i => bit_at (bdata bv) (p + i)).
    destruct (N.eqb_spec (p / 64) (blen bv / 64)) as [Eq|Eq].
    - rewrite (idx_ok 0) by (rewrite Hl; dlia). cbn [bind].
      destruct (bv_append_bits_unchecked_ok bv_new (N.shiftr (nthN 0 (bdata bv) (p / 64)) (p mod 64))
                  (blen bv - p)) as (o & Eo & Ho & Hb); try dlia.
      + apply bv_new_wf.
      + apply zero_tail_clean, bv_new_zero_tail.
      + auto with words.
      + exists o. split; [exact Eo|]. split; auto. rewrite Hb, bv_new_bits. cbn [app]. apply lowbits_shiftr. dlia.
    - match goal with |- exists o, bind ?X _ = _ /\ _ => set (fst_ := X) end.
      assert (H1 : exists o from, fst_ = Ok (o, from) /\ wf o /\ zero_tail o /\
                     p <= 64 * from /\ from <= blen bv / 64 /\ bits o = bools f (64 * from - p)).
      { unfold fst_. clear fst_. destruct (N.ltb_spec 0 (p mod 64)).
        - rewrite (idx_ok 0) by (rewrite Hl; dlia). cbn [bind].
          destruct (bv_append_bits_unchecked_ok bv_new (N.shiftr (nthN 0 (bdata bv) (p / 64)) (p mod 64))
                      (64 - p mod 64)) as (o & Eo & Ho & Hb); try dlia.
          + apply bv_new_wf.
          + apply zero_tail_clean, bv_new_zero_tail.
          + auto with words.
          + rewrite Eo. cbn [bind]. exists o, (p / 64 + 1). repeat split; auto; try apply Ho; try dlia.
            * eapply append_unchecked_zero_tail; [apply bv_new_wf|apply bv_new_zero_tail| | | |exact Eo]; try dlia.
              apply shiftr_pow_lt; [auto with words|dlia].
            * rewrite Hb, bv_new_bits. cbn [app]. rewrite lowbits_shiftr by dlia. fold f. f_equal. dlia.
        - exists bv_new, (p / 64). replace (64 * (p / 64) - p) with 0 by dlia.
          pose proof bv_new_zero_tail. repeat split; try constructor; auto; dlia. }
      destruct H1 as (o1 & from & -> & Ho1 & Hz1 & Hfp & Hfl & Hb1). cbn [bind].
      match goal with |- exists o, bind (forM _ _ ?F) _ = _ /\ _ => set (F0 := F) end.
      destruct (forM_range_inv (fun i s => wf s /\ zero_tail s /\ bits s = bools f (64 * i - p))
                  from (blen bv / 64) o1 F0) as (o2 & -> & Ho2 & Hz2 & Hb2); auto.
      { intros i s Hi1 Hi2 (Hs & Hz & Hb). unfold F0. rewrite (idx_ok 0) by (rewrite Hl; dlia). cbn [bind].
        destruct (bv_append_bits_unchecked_ok s (nthN 0 (bdata bv) i) 64) as (s' & Es & Hs' & Hb');
          auto; try lia; [now apply zero_tail_clean|auto with words|].
        exists s'. split; auto. split; [|split]; auto.
        - eapply append_unchecked_zero_tail; [exact Hs|exact Hz| | | |exact Es]; try lia.
          apply words_nth; auto.
        - rewrite Hb', Hb. replace (64 * (i + 1) - p) with ((64 * i - p) + 64) by lia.
          rewrite bools_app. f_equal. rewrite lowbits_limb by lia. apply bools_ext. intros j Hj.
          unfold f. f_equal. lia. }
      cbn [bind]. destruct (N.ltb_spec 0 (blen bv mod 64)).
      + rewrite (idx_ok 0) by (rewrite Hl; dlia). cbn [bind].
        destruct (bv_append_bits_unchecked_ok o2 (nthN 0 (bdata bv) (blen bv / 64)) (blen bv mod 64))
          as (o3 & Eo & Ho3 & Hb3); auto; try dlia; [now apply zero_tail_clean|auto with words|].
        exists o3. split; auto. split; auto. rewrite Hb3, Hb2, lowbits_limb by dlia.
        replace (blen bv - p) with ((64 * (blen bv / 64) - p) + blen bv mod 64) by dlia.
        rewrite bools_app. f_equal. apply bools_ext. intros j Hj. unfold f. f_equal. dlia.
      + exists o2. split; auto. split; auto. rewrite Hb2. f_equal. dlia. }
  destruct Ho as (o & -> & Ho & Hbo). cbn [bind].
  destruct (bv_drop_last_ok bv (blen bv - p) H) as (a & -> & Ha & Hba). cbn [bind].
  exists a, o. repeat split; auto; try apply Ha; try apply Ho.
  rewrite Hba. f_equal. lia.
Qed.

(** ** pack / unpack *)
Lemma lowbits_split w a b : lowbits w (a + b) = lowbits w a ++ lowbits (N.shiftr w a) b.
Proof.
  unfold lowbits. change (map (N.testbit w) (range 0 (a + b))) with (bools (N.testbit w) (a + b)).
  rewrite bools_app. f_equal. apply bools_ext. intros i _. rewrite N.shiftr_spec'. f_equal. lia.
Qed.
Lemma lowbits_0 n : lowbits 0 n = replicate n false.
Proof.
  apply list_ext with (d := false).
  - rewrite lenN_lowbits, lenN_replicate. reflexivity.
  - intros i Hi. rewrite lenN_lowbits in Hi. rewrite nthN_lowbits, nthN_replicate by auto. apply N.bits_0.
Qed.
Lemma replicate_add {A} n m (x : A) : replicate (n + m) x = replicate n x ++ replicate m x.
Proof. unfold replicate. rewrite Nnat.N2Nat.inj_add. apply repeat_app. Qed.

Lemma bv_pad_loop_ok fuel bv rest maxb :
  wf bv -> 1 <= maxb -> maxb <= 64 -> rest <= N.of_nat fuel * maxb ->
  exists bv', bv_pad_loop fuel bv rest maxb = Ok bv' /\ wf bv' /\
              bits bv' = bits bv ++ replicate rest false.
Proof.
  revert bv rest. induction fuel as [|fuel IH]; intros bv rest H H1 H64 Hf; cbn [bv_pad_loop].
  - assert (rest = 0) by lia. subst. cbn. exists bv. rewrite app_nil_r. auto.
  - destruct (N.ltb_spec 0 rest).
    + destruct (bv_append_bits_ok bv 0 (N.min rest maxb) H) as (b1 & E & Hb & Hbits); try lia; [reflexivity|].
      rewrite E. cbn [bind]. destruct (IH b1 (rest - maxb)) as (b2 & E2 & Hb2 & Hbits2); auto; try lia.
      exists b2. split; auto. split; auto. rewrite Hbits2, Hbits, <- app_assoc. f_equal.
      rewrite lowbits_0, <- replicate_add. f_equal. lia.
    + assert (rest = 0) by lia. subst. exists bv. rewrite app_nil_r. auto.
Qed.

Lemma bv_pack_word_ok maxb bv w n :
  wf bv -> 1 <= maxb -> maxb <= 64 -> w < 2 ^ maxb -> 1 <= n ->
  exists bv', bv_pack_word maxb bv w n = Ok bv' /\ wf bv' /\ bits bv' = bits bv ++ lowbits w n.
Proof.
  intros H H1 H64 Hw Hn.
  assert (Hw64 : w < U64).
  { rewrite U64_pow. apply N.lt_le_trans with (2 ^ maxb); auto. apply N.pow_le_mono_r; lia. }
  unfold bv_pack_word. destruct (N.leb_spec n maxb).
  - apply bv_append_bits_ok; auto. lia.
  - destruct (bv_append_bits_ok bv w maxb H) as (b1 & E & Hb & Hbits); auto. rewrite E. cbn [bind].
    rewrite sub_ok by lia. cbn [bind].
    destruct (bv_pad_loop_ok (S (N.to_nat ((n - maxb) / maxb))) b1 (n - maxb) maxb) as (b2 & E2 & Hb2 & Hbits2); auto.
    + pose proof (N.div_mod (n - maxb) maxb ltac:(lia)).
      pose proof (N.mod_lt (n - maxb) maxb ltac:(lia)). rewrite Nnat.Nat2N.inj_succ, Nnat.N2Nat.id. nia.
    + exists b2. split; auto. split; auto. rewrite Hbits2, Hbits, <- app_assoc. f_equal.
      replace n with (maxb + (n - maxb)) at 2 by lia. rewrite lowbits_split. f_equal.
      rewrite <- lowbits_0. f_equal. rewrite N.shiftr_div_pow2. symmetry. apply N.div_small. auto.
Qed.

Lemma bv_pack_ok maxb l n :
  1 <= maxb -> maxb <= 64 -> Forall (fun w => w < 2 ^ maxb) l -> 1 <= n ->
  exists bv, bv_pack maxb l n = Ok bv /\ wf bv /\ bits bv = concat (map (fun w => lowbits w n) l).
Proof.
  intros H1 H64 Hl Hn. rewrite Forall_forall in Hl.
  destruct (forM_list_inv (fun pre s => wf s /\ bits s = concat (map (fun w => lowbits w n) pre))
              l bv_new (fun bv w => bv_pack_word maxb bv w n)) as (s & E & Hs & Hb); eauto.
  - split; [apply bv_new_wf|reflexivity].
  - intros pre x post s El [Hs Hb].
    destruct (bv_pack_word_ok maxb s x n) as (s' & E & Hs' & Hb'); auto.
    + apply Hl. subst l. apply in_elt.
    + exists s'. split; auto. split; auto. rewrite Hb', Hb, map_app, concat_app. cbn. now rewrite app_nil_r.
Qed.

Lemma lenN_concat_lowbits l n : lenN (concat (map (fun w => lowbits w n) l)) = n * lenN l.
Proof.
  induction l as [|w l IH]; cbn [map concat]; [cbn; lia|].
  rewrite lenN_app, IH, lenN_lowbits, lenN_cons. lia.
Qed.

Lemma slice_concat_lowbits l n i :
  i < lenN l -> sliceN (i * n) n (concat (map (fun w => lowbits w n) l)) = lowbits (nthN 0 l i) n.
Proof.
  revert i. induction l as [|w l IH]; intros i Hi; [rewrite lenN_nil in Hi; lia|].
  rewrite lenN_cons in Hi. cbn [map concat]. rewrite nthN_cons.
  destruct (N.eqb_spec i 0) as [->|Hi0].
  - cbn. unfold sliceN. rewrite dropN_0. rewrite <- (lenN_lowbits w n) at 1. apply takeN_app_exact.
  - rewrite <- IH by lia. unfold sliceN. f_equal.
    rewrite dropN_app_ge by (rewrite lenN_lowbits; nia). f_equal. rewrite lenN_lowbits. nia.
Qed.

(** ** equality and hash *)
(** The part of the contents that [eq] and [hash] look at. *)
Definition eq_visible (n : N) : N := if n mod 64 =? 0 then n - 64 else n.

Lemma bits_eq_limbs a b i :
  wf a -> wf b -> 64 * (i + 1) <= blen a -> 64 * (i + 1) <= blen b ->
  (forall j, j < 64 -> bit_at (bdata a) (64 * i + j) = bit_at (bdata b) (64 * i + j)) ->
  nthN 0 (bdata a) i = nthN 0 (bdata b) i.
Proof.
  intros [_ Ha] [_ Hb] La Lb H. apply N.bits_inj. intros j.
  destruct (N.lt_ge_cases j 64) as [L|L].
  - specialize (H j L). unfold bit_at in H. replace ((64 * i + j) / 64) with i in H by dlia.
    replace ((64 * i + j) mod 64) with j in H by dlia. auto.
  - rewrite !testbit_U64_high; auto with words.
Qed.

Lemma eq_loop_spec (da db : list N) k n :
  k <= n -> n <= lenN da -> n <= lenN db ->
  forM_ret (range k n) tt (fun _ i =>
      let* x := idx da i in
      let* y := idx db i in
      if negb (x =? y) then Ok (inr tt) else Ok (inl tt)) =
  Ok (if forallb (fun i => nthN 0 da i =? nthN 0 db i) (range k n) then inl tt else inr tt).
Proof.
  intros Hk Ha Hb. remember (N.to_nat (n - k)) as m eqn:Em. revert k Hk Em.
  induction m as [|m IH]; intros k Hk Em.
  - rewrite range_nil by lia. reflexivity.
  - rewrite range_cons by lia. cbn [forM_ret forallb]. rewrite !(idx_ok 0) by lia. cbn [bind].
    destruct (N.eqb_spec (nthN 0 da k) (nthN 0 db k)); cbn; auto.
    apply IH; lia.
Qed.

Lemma takeN_bits_eq a b k :
  k <= blen a -> k <= blen b ->
  (takeN k (bits a) = takeN k (bits b) <->
   forall i, i < k -> bit_at (bdata a) i = bit_at (bdata b) i).
Proof.
  intros Ha Hb. unfold bits. rewrite !takeN_bools by auto. split.
  - intros H i Hi. apply (f_equal (fun l => nthN false l i)) in H. now rewrite !nthN_bools in H.
  - apply bools_ext.
Qed.

Lemma bv_eq_visible a b :
  wf a -> wf b ->
  exists r, bv_eq a b = Ok r /\
    (r = true <-> blen a = blen b /\
                  takeN (eq_visible (blen a)) (bits a) = takeN (eq_visible (blen a)) (bits b)).
Proof.
  intros Ha Hb. unfold bv_eq. destruct (N.eqb_spec (blen a) (blen b)) as [E|E]; cbn [negb].
  2:{ exists false. split; auto. split; [discriminate|]. intros [? _]. congruence. }
  destruct (N.eqb_spec (blen a) 0) as [E0|E0].
  { exists true. split; auto. split; auto. intros _. split; auto. rewrite E0. reflexivity. }
  pose proof Ha as [Hla Hwa]. pose proof Hb as [Hlb Hwb]. rewrite <- E in Hlb.
  assert (Hvis : eq_visible (blen a) <= blen a) by (unfold eq_visible; destruct (_ =? _); lia).
  pose proof (takeN_bits_eq a b (eq_visible (blen a)) ltac:(lia) ltac:(lia)) as Ht. setoid_rewrite Ht. clear Ht.
  rewrite sub_ok by (rewrite Hla; dlia). cbn [bind].
  rewrite eq_loop_spec by lia. cbn [bind].
  destruct (forallb _ _) eqn:F.
  - rewrite forallb_forall in F.
    assert (F' : forall i, i < lenN (bdata a) - 1 -> nthN 0 (bdata a) i = nthN 0 (bdata b) i).
    { intros i Hi. apply N.eqb_eq, F. apply In_range. lia. }
    rewrite !(idx_ok 0) by (rewrite ?Hla, ?Hlb; dlia). cbn [bind].
    set (x := nthN 0 (bdata a) (lenN (bdata a) - 1)). set (y := nthN 0 (bdata b) (lenN (bdata a) - 1)).
    assert (Hm : N.land x (lowmask (blen a mod 64)) = N.land y (lowmask (blen a mod 64)) <->
                 forall j, j < blen a mod 64 -> N.testbit x j = N.testbit y j).
    { split.
      - intros H j Hj. apply (f_equal (fun w => N.testbit w j)) in H.
        rewrite !N.land_spec, lowmask_spec in H by dlia.
        destruct (N.ltb_spec j (blen a mod 64)); [|lia]. now rewrite !andb_true_r in H.
      - intros H. apply N.bits_inj. intros j. rewrite !N.land_spec, lowmask_spec by dlia.
        destruct (N.ltb_spec j (blen a mod 64)); [|now rewrite !andb_false_r]. rewrite !andb_true_r. auto. }
    destruct (N.eqb_spec (N.land x (lowmask (blen a mod 64))) (N.land y (lowmask (blen a mod 64)))) as [Em|Em]; cbn [negb].
    + exists true. split; auto. split; auto. intros _. split; auto. rewrite Hm in Em.
      intros i Hi. unfold bit_at.
      destruct (N.lt_ge_cases (i / 64) (lenN (bdata a) - 1)) as [L|L].
      * now rewrite F'.
      * unfold eq_visible in Hi. destruct (N.eqb_spec (blen a mod 64) 0); [dlia|].
        replace (i / 64) with (lenN (bdata a) - 1) by dlia. apply Em. dlia.
    + exists false. split; auto. split; [discriminate|]. intros [_ H]. exfalso. apply Em. apply Hm.
      intros j Hj. unfold x, y. specialize (H (64 * (lenN (bdata a) - 1) + j)).
      unfold eq_visible in H. destruct (N.eqb_spec (blen a mod 64) 0); [lia|].
      specialize (H ltac:(dlia)). unfold bit_at in H.
      replace ((64 * (lenN (bdata a) - 1) + j) / 64) with (lenN (bdata a) - 1) in H by dlia.
      replace ((64 * (lenN (bdata a) - 1) + j) mod 64) with j in H by dlia. auto.
  - exists false. split; auto. split; [discriminate|]. intros [_ H]. exfalso.
    assert (forallb (fun i => nthN 0 (bdata a) i =? nthN 0 (bdata b) i) (range 0 (lenN (bdata a) - 1)) = true).
    { apply forallb_forall. intros i Hi. apply In_range in Hi. apply N.eqb_eq.
      apply bits_eq_limbs; auto; try dlia. intros j Hj. apply H. unfold eq_visible. destruct (N.eqb_spec (blen a mod 64) 0); dlia. }
    congruence.
Qed.

Lemma bv_eq_spec a b :
  wf a -> wf b -> blen a mod 64 <> 0 \/ blen a = 0 ->
  exists r, bv_eq a b = Ok r /\ (r = true <-> bits a = bits b).
Proof.
  intros Ha Hb Hn. destruct (bv_eq_visible a b Ha Hb) as (r & E & Hr). exists r. split; auto.
  rewrite Hr. clear Hr E r.
  assert (Hv : eq_visible (blen a) = blen a).
  { unfold eq_visible. destruct (N.eqb_spec (blen a mod 64) 0); auto. lia. }
  rewrite Hv. split.
  - intros [E H]. rewrite !takeN_all in H; rewrite ?lenN_bits; auto; lia.
  - intros H. pose proof (f_equal lenN H) as E. rewrite !lenN_bits in E. split; auto. now rewrite H.
Qed.

Lemma bv_eq_refl_bits a b :
  wf a -> wf b -> bits a = bits b -> bv_eq a b = Ok true.
Proof.
  intros Ha Hb H. destruct (bv_eq_visible a b Ha Hb) as (r & -> & Hr). f_equal. apply Hr.
  pose proof (f_equal lenN H) as E. rewrite !lenN_bits in E. split; auto. now rewrite H.
Qed.

Lemma bv_hash_ok a :
  wf a -> bv_hash a = Ok (blen a :: if blen a =? 0 then [] else
     takeN (lenN (bdata a) - 1) (bdata a)
       ++ [N.land (nthN 0 (bdata a) (lenN (bdata a) - 1)) (lowmask (blen a mod 64))]).
Proof.
  intros [Hl Hw]. unfold bv_hash. destruct (N.ltb_spec 0 (blen a)), (N.eqb_spec (blen a) 0); try lia; auto.
  rewrite sub_ok by (rewrite Hl; dlia). cbn [bind]. rewrite slice_chk_ok by lia. cbn [bind].
  rewrite (last_chk_ok 0) by (rewrite Hl; dlia). cbn [bind]. unfold sliceN. now rewrite dropN_0, N.sub_0_r.
Qed.

Lemma bv_hash_eq a b : wf a -> wf b -> bv_eq a b = Ok true -> bv_hash a = bv_hash b.
Proof.
  intros Ha Hb H. destruct (bv_eq_visible a b Ha Hb) as (r & E & Hr).
  rewrite H in E. injection E as <-. destruct Hr as [Hr _]. destruct (Hr eq_refl) as [El Hv]. clear Hr H.
  rewrite !bv_hash_ok by auto. pose proof Ha as [Hla Hwa]. pose proof Hb as [Hlb Hwb]. rewrite <- El in *.
  f_equal. f_equal. destruct (N.eqb_spec (blen a) 0); auto.
  assert (Hvis : eq_visible (blen a) <= blen a) by (unfold eq_visible; destruct (_ =? _); lia).
  rewrite takeN_bits_eq in Hv by lia.
  replace (lenN (bdata b)) with (lenN (bdata a)) by lia. f_equal.
  - apply list_ext with (d := 0).
    + rewrite !lenN_takeN. lia.
    + intros i Hi. rewrite lenN_takeN in Hi. rewrite !nthN_takeN by lia.
      apply bits_eq_limbs; auto; try dlia. intros j Hj. apply Hv. unfold eq_visible.
      destruct (N.eqb_spec (blen a mod 64) 0); dlia.
  - f_equal. apply N.bits_inj. intros j. rewrite !N.land_spec, lowmask_spec by dlia.
    destruct (N.ltb_spec j (blen a mod 64)); [|now rewrite !andb_false_r]. f_equal.
    specialize (Hv (64 * (lenN (bdata a) - 1) + j)).
    unfold eq_visible in Hv. destruct (N.eqb_spec (blen a mod 64) 0); [lia|].
    specialize (Hv ltac:(dlia)). unfold bit_at in Hv.
    replace ((64 * (lenN (bdata a) - 1) + j) / 64) with (lenN (bdata a) - 1) in Hv by dlia.
    replace ((64 * (lenN (bdata a) - 1) + j) mod 64) with j in Hv by dlia. auto.
Qed.

(** ** masks *)
(** A word operation that acts bit by bit as [f]. *)
Definition bitwise (op : N -> N -> N) (f : bool -> bool -> bool) : Prop :=
  forall a b, a < U64 -> b < U64 ->
    op a b < U64 /\ forall i, i < 64 -> N.testbit (op a b) i = f (N.testbit a i) (N.testbit b i).

Lemma bitwise_or : bitwise N.lor orb.
Proof. intros a b Ha Hb. split; [auto with words|]. intros. apply N.lor_spec. Qed.
Lemma bitwise_and : bitwise N.land andb.
Proof. intros a b Ha Hb. split; [auto with words|]. intros. apply N.land_spec. Qed.
Lemma bitwise_xor : bitwise N.lxor xorb.
Proof. intros a b Ha Hb. split; [auto with words|]. intros. apply N.lxor_spec. Qed.

(** Pointwise combination of two lists. *)
Definition zip_with {A B C} (f : A -> B -> C) (l : list A) (m : list B) : list C :=
  map (fun '(a, b) => f a b) (combine l m).

Lemma lenN_combine {A B} (l : list A) (m : list B) : lenN (combine l m) = N.min (lenN l) (lenN m).
Proof. unfold lenN. rewrite combine_length. lia. Qed.
Lemma lenN_zip {A B C} (f : A -> B -> C) l m : lenN (zip_with f l m) = N.min (lenN l) (lenN m).
Proof. unfold zip_with. now rewrite lenN_map, lenN_combine. Qed.
Lemma nthN_zip {A B C} (f : A -> B -> C) da db dc l m i :
  i < lenN l -> i < lenN m -> nthN dc (zip_with f l m) i = f (nthN da l i) (nthN db m i).
Proof.
  revert m i. induction l as [|a l IH]; intros [|b m] i Hl Hm;
    rewrite ?lenN_nil, ?lenN_cons in *; try lia.
  unfold zip_with in *. cbn [combine map]. rewrite !nthN_cons. destruct (N.eqb_spec i 0); auto.
  apply IH; lia.
Qed.

Lemma masked_bits op f v m :
  bitwise op f -> wf v -> wf m -> blen v = blen m ->
  let r := mkbv (zip_with op (bdata v) (bdata m)) (blen v) in
  wf r /\ bits r = zip_with f (bits v) (bits m).
Proof.
  intros Hop [Hlv Hwv] [Hlm Hwm] E r. rewrite <- E in Hlm. subst r. split; [split|]; cbn [bdata blen].
  - rewrite lenN_zip. lia.
  - apply Forall_forall. intros x Hx. apply In_getN in Hx as (i & Hi & Hx). rewrite lenN_zip in Hi.
    apply getN_Some_inv in Hx as [_ Hx]. specialize (Hx 0). rewrite (nthN_zip _ 0 0) in Hx by lia.
    subst x. apply Hop; auto with words.
  - apply list_ext with (d := false).
    + rewrite lenN_zip, !lenN_bits. cbn. lia.
    + intros i Hi. rewrite lenN_bits in Hi. cbn [blen] in Hi.
      rewrite (nthN_zip _ false false) by (rewrite lenN_bits; lia).
      rewrite !nthN_bits by (cbn; lia). cbn [bdata]. unfold bit_at.
      rewrite (nthN_zip _ 0 0) by (rewrite ?Hlv, ?Hlm; dlia). apply Hop; auto with words. dlia.
Qed.

Lemma bv_apply_mask_loop op (d m : list N) :
  lenN d <= lenN m ->
  forM (range 0 (lenN d)) d (fun d i =>
      let* a := idx d i in
      let* b := idx m i in
      set_idx d i (op a b)) = Ok (zip_with op d m).
Proof.
  intros Hl.
  destruct (forM_range_inv (fun i s => lenN s = lenN d /\
      forall j, j < lenN d -> nthN 0 s j = if j <? i then op (nthN 0 d j) (nthN 0 m j) else nthN 0 d j)
    0 (lenN d) d (fun d i =>
      let* a := idx d i in
      let* b := idx m i in
      set_idx d i (op a b))) as (s & E & Hs & Hv).
  - lia.
  - split; auto. intros j _. now destruct (N.ltb_spec j 0); [lia|].
  - intros i s _ Hi [Hs Hv]. rewrite !(idx_ok 0) by lia. cbn [bind]. rewrite set_idx_ok by lia.
    eexists. split; [reflexivity|]. rewrite lenN_set_nth. split; auto. intros j Hj.
    rewrite nthN_set_nth by lia. destruct (N.eqb_spec j i) as [->|].
    + rewrite Hv by auto. destruct (N.ltb_spec i i), (N.ltb_spec i (i + 1)); try lia; auto.
    + rewrite Hv by auto. destruct (N.ltb_spec j i), (N.ltb_spec j (i + 1)); try lia; auto.
  - rewrite E. f_equal. apply list_ext with (d := 0).
    + rewrite lenN_zip. lia.
    + intros i Hi. rewrite (nthN_zip _ 0 0) by lia. rewrite Hv by lia.
      destruct (N.ltb_spec i (lenN d)); [auto|lia].
Qed.

Lemma bv_apply_mask_ok op f v m :
  bitwise op f -> wf v -> wf m -> blen v = blen m ->
  exists r, bv_apply_mask op v m = Ok (Some r) /\ wf r /\ bits r = zip_with f (bits v) (bits m).
Proof.
  intros Hop Hv Hm E. unfold bv_apply_mask. rewrite E, N.eqb_refl. cbn [negb].
  rewrite bv_apply_mask_loop by (destruct Hv, Hm; lia). cbn [bind]. eexists. split; [reflexivity|].
  rewrite <- E. now apply masked_bits.
Qed.
Lemma bv_apply_mask_err op v m : blen v <> blen m -> bv_apply_mask op v m = Ok None.
Proof. intros. unfold bv_apply_mask. destruct (N.eqb_spec (blen v) (blen m)); [congruence|reflexivity]. Qed.

Definition masked_wf (m : masked) (f : bool -> bool -> bool) : Prop :=
  bitwise (mop m) f /\ wf (mvec m) /\ wf (mmask m) /\ blen (mvec m) = blen (mmask m).

(** What a masked view shows. *)
Definition masked_bits_spec (f : bool -> bool -> bool) (m : masked) : list bool :=
  zip_with f (bits (mvec m)) (bits (mmask m)).

Lemma masked_to_bit_vec_ok m f :
  masked_wf m f -> wf (masked_to_bit_vec m) /\ bits (masked_to_bit_vec m) = masked_bits_spec f m.
Proof. intros (H1 & H2 & H3 & H4). now apply masked_bits. Qed.

Lemma masked_get_unchecked_to m f p :
  masked_wf m f -> p < blen (mvec m) ->
  masked_get_unchecked m p = bv_get_unchecked (masked_to_bit_vec m) p.
Proof.
  intros (H1 & [Hl2 _] & [Hl3 _] & E) Hp. rewrite <- E in Hl3. unfold masked_get_unchecked, bv_get_unchecked.
  cbn [masked_to_bit_vec bdata]. unfold masked_limbs. fold (zip_with (mop m) (bdata (mvec m)) (bdata (mmask m))).
  rewrite !(idx_ok 0) by (rewrite ?lenN_zip, ?Hl2, ?Hl3; dlia). cbn [bind].
  rewrite (nthN_zip _ 0 0) by (rewrite ?Hl2, ?Hl3; dlia). reflexivity.
Qed.

Lemma masked_get_to m f p : masked_wf m f -> masked_get m p = bv_get (masked_to_bit_vec m) p.
Proof.
  intros H. unfold masked_get, bv_get. cbn [masked_to_bit_vec blen].
  destruct (N.leb_spec (blen (mvec m)) p); auto. now rewrite (masked_get_unchecked_to m f).
Qed.
Lemma masked_is_bit_set_to m f p : masked_wf m f -> masked_is_bit_set m p = bv_is_bit_set (masked_to_bit_vec m) p.
Proof.
  intros H. unfold masked_is_bit_set, bv_is_bit_set, bv_is_bit_set_unchecked. cbn [masked_to_bit_vec blen].
  destruct (N.leb_spec (blen (mvec m)) p); auto. rewrite (masked_get_unchecked_to m f) by auto.
  now destruct (bv_get_unchecked (masked_to_bit_vec m) p).
Qed.

Lemma masked_count_ones_to m f : masked_wf m f -> masked_count_ones m = bv_count_ones (masked_to_bit_vec m).
Proof.
  intros (H1 & [Hl2 _] & [Hl3 _] & E). rewrite <- E in Hl3.
  unfold masked_count_ones, bv_count_ones. cbn [masked_to_bit_vec blen bdata].
  unfold masked_limbs. fold (zip_with (mop m) (bdata (mvec m)) (bdata (mmask m))).
  assert (Hlz : lenN (zip_with (mop m) (bdata (mvec m)) (bdata (mmask m))) = (blen (mvec m) + 63) / 64)
    by (rewrite lenN_zip; lia).
  rewrite slice_chk_ok by (rewrite ?Hlz; dlia). cbn [bind]. unfold sliceN. rewrite dropN_0, N.sub_0_r.
  destruct (N.eqb_spec (blen (mvec m) mod 64) 0); auto.
  rewrite !(last_chk_ok 0) by (rewrite ?Hlz, ?Hl2, ?Hl3; dlia). cbn [bind].
  rewrite (nthN_zip _ 0 0) by (rewrite ?Hlz, ?Hl2, ?Hl3; dlia). rewrite Hlz, Hl2, Hl3. reflexivity.
Qed.
Lemma masked_count_zeros_to m f : masked_wf m f -> masked_count_zeros m = bv_count_zeros (masked_to_bit_vec m).
Proof.
  intros H. unfold masked_count_zeros, bv_count_zeros. now rewrite (masked_count_ones_to m f).
Qed.

Lemma masked_get_bits_to m f p n :
  masked_wf m f -> n <> 64 \/ p mod 64 = 0 ->
  masked_get_bits m p n = bv_get_bits (masked_to_bit_vec m) p n.
Proof.
  intros Hm Hn. pose proof (masked_to_bit_vec_ok m f Hm) as [Hwf _].
  destruct Hm as (H1 & [Hl2 Hw2] & [Hl3 Hw3] & E). rewrite <- E in Hl3.
  unfold masked_get_bits, bv_get_bits. cbn [masked_to_bit_vec blen].
  destruct (_ || _) eqn:En; auto. unfold add64. destruct (N.ltb_spec (p + n) U64); auto. cbn [bind].
  destruct (N.ltb_spec (blen (mvec m)) (p + n)); auto.
  unfold masked_get_bits_unchecked, bv_get_bits_unchecked, limbs_get_bits_unchecked.
  cbn [masked_to_bit_vec bdata]. unfold masked_limbs.
  fold (zip_with (mop m) (bdata (mvec m)) (bdata (mmask m))).
  assert (Hlz : lenN (zip_with (mop m) (bdata (mvec m)) (bdata (mmask m))) = (blen (mvec m) + 63) / 64)
    by (rewrite lenN_zip; lia).
  assert (Hn64 : 1 <= n <= 64) by lia.
  rewrite !assert_true by lia. cbn [bind].
  rewrite !(idx_ok 0 _ (p / 64)) by (rewrite ?Hlz, ?Hl2, ?Hl3; dlia). cbn [bind].
  rewrite (nthN_zip _ 0 0) by (rewrite ?Hl2, ?Hl3; dlia).
  set (w := mop m (nthN 0 (bdata (mvec m)) (p / 64)) (nthN 0 (bdata (mmask m)) (p / 64))).
  assert (Hw : w < U64) by (apply H1; auto with words).
  destruct (N.eqb_spec (p mod 64 + n) 64) as [E64|E64].
  - destruct (N.leb_spec (p mod 64 + n) 64); [|lia]. cbn [bind]. do 2 f_equal.
    apply N.bits_inj. intros i. rewrite N.land_spec, wrapmask_spec, N.shiftr_spec' by lia.
    destruct (N.ltb_spec i n); [now rewrite andb_true_r|]. rewrite andb_false_r.
    apply testbit_U64_high; auto. lia.
  - destruct (N.ltb_spec (p mod 64 + n) 64), (N.leb_spec (p mod 64 + n) 64); try lia.
    + cbn [bind]. do 3 f_equal. rewrite wrapmask_ones by lia. rewrite N.mod_small by lia.
      apply lowmask_ones. lia.
    + rewrite !(idx_ok 0) by (rewrite ?Hlz, ?Hl2, ?Hl3; dlia). cbn [bind].
      rewrite (nthN_zip _ 0 0) by (rewrite ?Hl2, ?Hl3; dlia).
      destruct (shl64_chk _ _); auto. cbn [bind]. do 3 f_equal.
      rewrite wrapmask_ones by lia. rewrite N.mod_small by lia. apply lowmask_ones. lia.
Qed.
