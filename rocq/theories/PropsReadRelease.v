(** * Property C137: multi-bit reads in a release build, for every length. *)
From Verif Require Import Base Spec BaseFacts WordFacts BitVecModel BitVecProofs BitVecProofs2 PropsBitVec RsVecModel RsVecProofs RsVecSelect RsEqProofs PropsRsVec
  GenIterModel ReleaseModel PropsSurplus PropsAgree PropsStored UncheckedReleaseModel PropsUncheckedRelease.

(** What a read of more than 64 bits at [p] yields, given the stored bits [S] and the number [m] of bits
    that the final mask keeps. Both limbs at and behind [p] must exist. A read from the start of a limb
    mixes the two limbs, any other read yields the bits at [p]. If [p mod 64 + n] overflows, the rest
    of the limb is read. *)
Definition long_read (S : list bool) (p n m : N) : res N :=
  if lenN S <=? p then Panic
  else if 2 ^ 64 <=? p mod 64 + n then Ok (value (sliceN p (64 - p mod 64) S))
  else if lenN S <? 64 * (p / 64) + 128 then Panic
  else if p mod 64 =? 0 then Ok (N.lor (value (sliceN p m S)) (value (sliceN (p + 64) m S)))
  else Ok (value (sliceN p m S)).

Lemma slice_flat d p m : p + m <= 64 * lenN d -> sliceN p m (flat d) = bools (fun i => bit_at d (p + i)) m.
Proof. intros H. rewrite flat_bools. now apply sliceN_bools. Qed.
(** A limb list, a mask of [m] bits. *)
Lemma one_limb d p m k : words d -> p / 64 < lenN d -> p mod 64 + m <= 64 -> (forall i, i < 64 -> p mod 64 + i < 64 -> N.testbit k i = (i <? m)) ->
  N.land (N.shiftr (nthN 0 d (p / 64)) (p mod 64)) k = value (sliceN p m (flat d)).
Proof.
  intros Hw Hp Hm Hk. rewrite slice_flat by dlia. symmetry. apply value_bools. intros i. rewrite N.land_spec, N.shiftr_spec'. destruct (N.ltb_spec (p mod 64 + i) 64).
  - rewrite Hk by lia. destruct (N.ltb_spec i m); [|apply andb_false_r]. rewrite andb_true_r. cbn [andb]. unfold bit_at. f_equal; [f_equal|]; dlia.
  - rewrite (testbit_U64_high _ (i + p mod 64)) by (auto with words; lia). destruct (N.ltb_spec i m); [lia|reflexivity].
Qed.
Lemma two_limbs d p m k : words d -> p / 64 + 1 < lenN d -> m <= 64 -> (forall i, N.testbit k i = (i <? m)) ->
  N.land (N.lor (N.shiftr (nthN 0 d (p / 64)) (p mod 64)) (shl64 (nthN 0 d (p / 64 + 1)) ((64 - p mod 64) mod 64))) k =
  if p mod 64 =? 0 then N.lor (value (sliceN p m (flat d))) (value (sliceN (p + 64) m (flat d))) else value (sliceN p m (flat d)).
Proof.
  intros Hw Hp Hm Hk. destruct (N.eqb_spec (p mod 64) 0) as [E|E].
  - rewrite E. change ((64 - 0) mod 64) with 0. apply N.bits_inj. intros i. rewrite N.land_spec, !N.lor_spec, Hk, N.shiftr_spec', N.add_0_r. rewrite !testbit_value. rewrite !slice_flat by dlia.
    destruct (N.ltb_spec i m).
    + rewrite !nthN_bools, andb_true_r by auto. rewrite shl64_spec. unfold bit_at. destruct (N.ltb_spec i 64); [|lia]. destruct (N.leb_spec 0 i); [|lia]. cbn [andb]. rewrite N.sub_0_r. f_equal; (f_equal; [f_equal|]); dlia.
    + rewrite andb_false_r, !(nthN_overflow false (bools _ m)) by (rewrite lenN_bools; auto). reflexivity.
  - rewrite (N.mod_small (64 - p mod 64)) by dlia. rewrite slice_flat by dlia. symmetry. apply value_bools. intros i. rewrite N.land_spec, Hk, N.lor_spec, N.shiftr_spec', shl64_spec.
    destruct (N.ltb_spec i m); [|apply andb_false_r]. rewrite andb_true_r. cbn [andb]. destruct (N.ltb_spec i 64); [|lia]. destruct (N.leb_spec (64 - p mod 64) i); cbn [andb].
    + rewrite (testbit_U64_high _ (i + p mod 64)) by (auto with words; lia). cbn [orb]. unfold bit_at. f_equal; [f_equal|]; dlia.
    + rewrite orb_false_r. unfold bit_at. f_equal; [f_equal|]; dlia.
Qed.
Lemma wrapmask_any n i : N.testbit (wrapmask n) i = (i <? N.min 64 n).
Proof.
  destruct (N.le_gt_cases n 64) as [L|L]; [rewrite wrapmask_spec by auto; f_equal; lia|]. replace (wrapmask n) with (wrapmask 64); [rewrite wrapmask_spec by lia; f_equal; lia|].
  unfold wrapmask. destruct (N.ltb_spec n 64); [lia|reflexivity].
Qed.
Lemma limbs_long d p n : words d -> p < 2 ^ 64 -> 64 < n -> n < 2 ^ 64 -> limbs_get_bits_unchecked_rel d p n = long_read (flat d) p n (N.min 64 (n mod 2 ^ 32)).
Proof.
  intros Hw Hp Hn Hn2. unfold limbs_get_bits_unchecked_rel, long_read, wrapping_add. change U64 with (2 ^ 64). rewrite lenN_flat. assert (Hq : p mod 64 < 64) by (apply N.mod_lt; lia).
  destruct (N.leb_spec (64 * lenN d) p); [now rewrite idx_panic by dlia|]. assert (p / 64 < lenN d) by dlia. rewrite (idx_ok 0) by auto. cbn [bind]. destruct (N.leb_spec (2 ^ 64) (p mod 64 + n)) as [L|L].
  - assert (E : (p mod 64 + n) mod 2 ^ 64 = p mod 64 + n - 2 ^ 64) by (symmetry; apply N.mod_unique with 1; lia). rewrite E. destruct (N.leb_spec (p mod 64 + n - 2 ^ 64) 64); [|lia]. f_equal.
    apply one_limb; auto; [lia|]. intros i Hi Hi2. rewrite wrapmask_any. assert (E2 : n mod 2 ^ 32 = n - 4294967295 * 2 ^ 32) by (symmetry; apply N.mod_unique with 4294967295; lia). rewrite E2.
    destruct (N.ltb_spec i (N.min 64 (n - 4294967295 * 2 ^ 32))), (N.ltb_spec i (64 - p mod 64)); auto; lia.
  - rewrite (N.mod_small (p mod 64 + n)) by auto. destruct (N.leb_spec (p mod 64 + n) 64); [lia|]. destruct (N.ltb_spec (64 * lenN d) (64 * (p / 64) + 128)); [now rewrite idx_panic by lia|]. rewrite (idx_ok 0) by lia. cbn [bind].
    rewrite (two_limbs d p (N.min 64 (n mod 2 ^ 32))); [now destruct (p mod 64 =? 0)|auto|lia|lia|intros i; apply wrapmask_any].
Qed.

(** Bit vectors and [RsVec]s; [unpack_element_unchecked] reads at the wrapped product. *)
Theorem C137_reads bv p n : wf bv -> p < 2 ^ 64 -> n < 2 ^ 64 ->
  let S := flat (bdata bv) in
  let read q := if n <=? 64 then read_stored (bdata bv) q n else long_read S q n (N.min 64 (n mod 2 ^ 32)) in
  bv_get_bits_unchecked_rel bv p n = read p /\
  bv_unpack_element_unchecked_rel bv p n = read ((p * n) mod 2 ^ 64) /\
  (forall rs, rs_from_bit_vec bv = Ok rs -> rs_get_bits_unchecked_rel rs p n = read p).
Proof.
  intros H Hp Hn S read. destruct (H) as [_ Hw]. assert (E : forall q, q < 2 ^ 64 -> limbs_get_bits_unchecked_rel (bdata bv) q n = read q).
  { intros q Hq. unfold read. destruct (N.leb_spec n 64); [rewrite limbs_rel_ok by auto; now apply read_ok|now apply limbs_long]. }
  split; [now apply E|]. split.
  - unfold bv_unpack_element_unchecked_rel, bv_get_bits_unchecked_rel, wrapping_mul. change U64 with (2 ^ 64). apply E. apply N.mod_lt. discriminate.
  - intros rs Hrs. pose proof (built bv rs H Hrs) as G. unfold rs_get_bits_unchecked_rel. rewrite (good_data _ _ G). now apply E.
Qed.

(** Masked vectors: the mask keeps [n mod 64] bits. *)
Theorem C137_masked op f v m x p n : bitwise op f -> wf v -> wf m -> masked_new v m op = Some x -> p < 2 ^ 64 -> n < 2 ^ 64 ->
  masked_get_bits_unchecked_rel x p n =
    if n <=? 64 then masked_get_bits_unchecked x p n else long_read (flat (bdata (masked_to_bit_vec x))) p n (n mod 64).
Proof.
  intros Hop [Hv Wv] [Hm Wm] E Hp Hn. unfold masked_new in E. destruct (N.eqb_spec (blen v) (blen m)) as [El|]; [|discriminate]. injection E as <-. rewrite <- El in Hm.
  unfold masked_get_bits_unchecked_rel, masked_get_bits_unchecked, masked_to_bit_vec, wrapping_add. change U64 with (2 ^ 64). cbn [mvec mmask mop bdata]. set (d := masked_limbs _).
  assert (Ld : lenN d = lenN (bdata v)).
  { unfold d, masked_limbs. cbn [mvec mmask]. rewrite lenN_map. unfold lenN in *. rewrite combine_length. lia. }
  assert (Hi : forall i, i < lenN (bdata v) -> op (nthN 0 (bdata v) i) (nthN 0 (bdata m) i) = nthN 0 d i).
  { intros i Hi. unfold d, masked_limbs. cbn [mvec mmask mop]. rewrite (nthN_map _ (0, 0)) by (unfold lenN in *; rewrite combine_length; lia).
    unfold nthN. rewrite combine_nth by (unfold lenN in *; lia). reflexivity. }
  assert (Wd : words d).
  { unfold words. apply Forall_forall. intros y Hy. unfold d, masked_limbs in Hy. cbn [mvec mmask mop] in Hy. apply in_map_iff in Hy as ((a, b) & <- & Hy). apply Hop; [eapply Forall_forall in Wv|eapply Forall_forall in Wm]; eauto; [eapply in_combine_l|eapply in_combine_r]; eauto. }
  assert (Hq : p mod 64 < 64) by (apply N.mod_lt; lia). assert (Lm : lenN (bdata m) = lenN (bdata v)) by lia.
  destruct (N.leb_spec n 64) as [L64|L64]; cbn [assert bind].
  - rewrite (N.mod_small (p mod 64 + n)) by lia. destruct (idx (bdata v) (p / 64)); [|reflexivity|reflexivity]. cbn [bind]. destruct (idx (bdata m) (p / 64)); [|reflexivity|reflexivity]. cbn [bind].
    destruct (N.eqb_spec (p mod 64 + n) 64); [reflexivity|]. destruct (N.ltb_spec (p mod 64 + n) 64); [reflexivity|]. destruct (idx (bdata v) (p / 64 + 1)); [|reflexivity|reflexivity]. cbn [bind]. destruct (idx (bdata m) (p / 64 + 1)); [|reflexivity|reflexivity]. cbn [bind].
    unfold shl64_chk. destruct (N.ltb_spec (64 - p mod 64) 64); [|lia]. cbn [bind]. now rewrite (N.mod_small (64 - p mod 64)) by lia.
  - unfold long_read. rewrite lenN_flat, Ld. destruct (N.leb_spec (64 * lenN (bdata v)) p); [now rewrite idx_panic by dlia|]. assert (Hl : p / 64 < lenN (bdata v)) by dlia. rewrite !(idx_ok 0) by lia. cbn [bind]. rewrite Hi by auto.
    destruct (N.leb_spec (2 ^ 64) (p mod 64 + n)) as [L|L].
    + assert (E : (p mod 64 + n) mod 2 ^ 64 = p mod 64 + n - 2 ^ 64) by (symmetry; apply N.mod_unique with 1; lia). rewrite E. destruct (N.eqb_spec (p mod 64 + n - 2 ^ 64) 64); [lia|]. destruct (N.ltb_spec (p mod 64 + n - 2 ^ 64) 64); [|lia]. f_equal.
      assert (E2 : n mod 64 = n - 288230376151711743 * 64) by (symmetry; apply N.mod_unique with 288230376151711743; lia).
      apply one_limb; [auto|lia|lia|]. intros i _ Hi2. rewrite lowmask_spec by (apply N.mod_lt; lia). rewrite E2. destruct (N.ltb_spec i (n - 288230376151711743 * 64)), (N.ltb_spec i (64 - p mod 64)); auto; lia.
    + rewrite (N.mod_small (p mod 64 + n)) by auto. destruct (N.eqb_spec (p mod 64 + n) 64); [lia|]. destruct (N.ltb_spec (p mod 64 + n) 64); [lia|]. destruct (N.ltb_spec (64 * lenN (bdata v)) (64 * (p / 64) + 128)); [now rewrite idx_panic by lia|].
      rewrite !(idx_ok 0) by lia. cbn [bind]. rewrite Hi by lia. assert (n mod 64 < 64) by (apply N.mod_lt; lia).
      rewrite (two_limbs d p (n mod 64)); [now destruct (p mod 64 =? 0)|auto|lia|lia|intros i; now apply lowmask_spec].
Qed.
(** [get_bits] of a masked vector: as in a debug build, except that an end that overflows wraps. *)
Theorem C137_masked_get_bits op f v m x p n : bitwise op f -> wf v -> wf m -> masked_new v m op = Some x -> lenN (bits v) <= 2 ^ 64 - 128 -> p < 2 ^ 64 -> n < 2 ^ 64 ->
  masked_get_bits_rel x p n =
    if (1 <=? n) && (n <=? 64) && (2 ^ 64 <=? p + n) then if p + n - 2 ^ 64 <=? lenN (bits v) then Panic else Ok None
    else masked_get_bits x p n.
Proof.
  intros Hop Hv Hm E Hb Hp Hn. unfold masked_get_bits_rel, masked_get_bits, wrapping_add, add64. change U64 with (2 ^ 64). rewrite lenN_bits in *. rewrite (C137_masked op f v m x p n) by auto.
  assert (Ev : mvec x = v) by (unfold masked_new in E; destruct (negb _); [discriminate|]; now injection E as <-). rewrite Ev.
  destruct (N.ltb_spec 64 n), (N.leb_spec n 64), (N.eqb_spec n 0), (N.leb_spec 1 n); try (exfalso; lia); cbn [orb andb]; try reflexivity.
  destruct (N.leb_spec (2 ^ 64) (p + n)) as [L|L].
  - assert (E1 : (p + n) mod 2 ^ 64 = p + n - 2 ^ 64) by (symmetry; apply N.mod_unique with 1; lia). rewrite E1. destruct (N.ltb_spec (blen v) (p + n - 2 ^ 64)), (N.leb_spec (p + n - 2 ^ 64) (blen v)); try lia; [reflexivity|].
    unfold masked_get_bits_unchecked. rewrite assert_true by lia. cbn [bind]. rewrite Ev. destruct Hv as [Hv _]. rewrite idx_panic by dlia. reflexivity.
  - rewrite (N.mod_small (p + n)) by auto. destruct (N.ltb_spec (p + n) (2 ^ 64)); [|lia]. reflexivity.
Qed.

(** [ex_bv] has 70 bits in two limbs. *)
Example C137_ex : wf ex_bv /\ bv_get_bits_unchecked_rel ex_bv 0 65 = Ok (N.lor (nthN 0 (bdata ex_bv) 0) (nthN 0 (bdata ex_bv) 1)) /\
  bv_get_bits_unchecked_rel ex_bv 3 65 = bv_get_bits_unchecked_rel ex_bv 3 64 /\ bv_get_bits_unchecked_rel ex_bv 3 64 = bv_get_bits_unchecked ex_bv 3 64 /\
  bv_get_bits_unchecked_rel ex_bv 3 (2 ^ 32 + 2) = bv_get_bits_unchecked ex_bv 3 2 /\ bv_get_bits_unchecked_rel ex_bv 64 65 = Panic /\ bv_get_bits_unchecked_rel ex_bv 67 (2 ^ 64 - 3) = bv_get_bits_unchecked ex_bv 67 61 /\
  bv_get_bits_unchecked ex_bv 0 65 = Panic /\
  (exists x, masked_new ex_bv ex_bv N.land = Some x /\ masked_get_bits_unchecked_rel x 3 66 = bv_get_bits_unchecked ex_bv 3 2 /\ masked_get_bits_rel x (2 ^ 64 - 1) 3 = Panic /\ masked_get_bits_rel x 5 3 = masked_get_bits x 5 3).
Proof.
  split; [apply ex_bv_wf|]. repeat (split; [vm_compute; reflexivity|]). eexists. split; [reflexivity|]. vm_compute. auto.
Qed.
