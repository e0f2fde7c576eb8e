(** * C110: unchecked access to all stored bits.

    The unchecked functions see the whole storage of a vector: [flat] (PropsSurplus) lists its bits,
    limb by limb, including those behind the length. *)
From Verif Require Import Base Spec BaseFacts WordFacts BitVecModel BitVecProofs BitVecProofs2 PropsBitVec RsVecModel RsVecProofs RsVecSelect PropsRsVec
  PropsSurplus PropsAgree.

Lemma flat_bools d : flat d = bools (bit_at d) (64 * lenN d).
Proof.
  apply list_ext with (d := false); [now rewrite lenN_flat, lenN_bools|]. rewrite lenN_flat. intros i Hi. rewrite nthN_bools by auto.
  revert i Hi. induction d as [|w d IH]; intros i Hi; [change (lenN (@nil N)) with 0 in Hi; lia|]. rewrite lenN_cons in Hi.
  change (w :: d) with ([w] ++ d). rewrite flat_app, flat_one, nthN_app, bit_at_app. change (lenN [w]) with 1.
  assert (El : lenN (lowbits w 64) = 64) by (unfold lowbits; rewrite lenN_map, lenN_range; reflexivity). rewrite El.
  destruct (N.ltb_spec i 64), (N.ltb_spec (i / 64) 1); try dlia.
  - unfold lowbits. rewrite (nthN_map _ 0) by (rewrite lenN_range; auto). rewrite nthN_range by auto. unfold bit_at.
    rewrite N.div_small, N.mod_small by auto. reflexivity.
  - rewrite IH by lia. reflexivity.
Qed.
Lemma nthN_flat d i : i < 64 * lenN d -> nthN false (flat d) i = bit_at d i.
Proof. intros. rewrite flat_bools. now apply nthN_bools. Qed.

(** The bits of the vector come first, fewer than 64 bits follow. *)
Theorem C110_stored bv : wf bv ->
  takeN (lenN (bits bv)) (flat (bdata bv)) = bits bv /\ lenN (bits bv) <= lenN (flat (bdata bv)) /\
  lenN (flat (bdata bv)) < lenN (bits bv) + 64 /\ lenN (flat (bdata bv)) mod 64 = 0.
Proof.
  intros [Hl _]. rewrite lenN_flat, lenN_bits, flat_bools. assert (blen bv <= 64 * lenN (bdata bv)) by (rewrite Hl; dlia).
  rewrite takeN_bools by auto. split; [reflexivity|]. rewrite Hl. split; [|split]; try dlia.
Qed.

(** ** Reads. *)
Lemma limb_exists (d : list N) p : (p <? 64 * lenN d) = (p / 64 <? lenN d).
Proof. destruct (N.ltb_spec p (64 * lenN d)), (N.ltb_spec (p / 64) (lenN d)); auto; dlia. Qed.
Lemma get_stored d p :
  (let* w := idx d (p / 64) in Ok (N.land (N.shiftr w (p mod 64)) 1)) =
  match getN (flat d) p with Some b => Ok (bitN b) | None => Panic end.
Proof.
  destruct (N.ltb_spec p (64 * lenN d)) as [L|L].
  - rewrite (getN_ok false) by (rewrite lenN_flat; auto). rewrite nthN_flat, (idx_ok 0) by (auto; dlia). cbn [bind]. now rewrite shiftr_land_1.
  - rewrite getN_none by (rewrite lenN_flat; auto). rewrite idx_panic by dlia. reflexivity.
Qed.
Definition read_stored (d : list N) (p n : N) : res N :=
  if (n <=? 64) && (p <? lenN (flat d)) && (p + n <=? lenN (flat d)) then Ok (value (sliceN p n (flat d))) else Panic.
Lemma read_ok d p n : words d -> limbs_get_bits_unchecked d p n = read_stored d p n.
Proof.
  intros Hw. unfold read_stored. rewrite lenN_flat.
  destruct (N.leb_spec n 64) as [Hn|Hn]; cbn [andb]; [|unfold limbs_get_bits_unchecked; destruct (N.leb_spec n 64); [lia|reflexivity]].
  destruct (N.ltb_spec p (64 * lenN d)) as [Hp|Hp]; cbn [andb].
  2:{ unfold limbs_get_bits_unchecked. rewrite assert_true by lia. cbn [bind]. now rewrite idx_panic by dlia. }
  destruct (N.eq_dec n 0) as [->|H0].
  { destruct (N.leb_spec (p + 0) (64 * lenN d)); [|lia]. unfold limbs_get_bits_unchecked. cbn [bind].
    rewrite assert_true by lia. cbn [bind]. rewrite (idx_ok 0) by dlia. cbn [bind].
    destruct (N.leb_spec (p mod 64 + 0) 64); [|dlia]. change (wrapmask 0) with 0. now rewrite N.land_0_r. }
  destruct (N.leb_spec (p + n) (64 * lenN d)).
  - rewrite limbs_get_bits_ok by (auto; dlia). rewrite flat_bools, sliceN_bools by auto. reflexivity.
  - unfold limbs_get_bits_unchecked. rewrite assert_true by lia. cbn [bind]. rewrite (idx_ok 0) by dlia. cbn [bind].
    destruct (N.leb_spec (p mod 64 + n) 64); [dlia|]. rewrite idx_panic by dlia. reflexivity.
Qed.
Theorem C110_reads bv p n : wf bv ->
  bv_get_unchecked bv p = match getN (flat (bdata bv)) p with Some b => Ok (bitN b) | None => Panic end /\
  bv_is_bit_set_unchecked bv p = match getN (flat (bdata bv)) p with Some b => Ok b | None => Panic end /\
  bv_get_bits_unchecked bv p n = read_stored (bdata bv) p n /\
  bv_unpack_element_unchecked bv p n = if p * n <? 2 ^ 64 then read_stored (bdata bv) (p * n) n else Panic.
Proof.
  intros [_ Hw]. unfold bv_is_bit_set_unchecked, bv_get_unchecked, bv_unpack_element_unchecked, bv_get_bits_unchecked.
  rewrite get_stored, !read_ok by auto. split; [auto|]. split; [|split; [auto|]].
  - destruct (getN _ _) as [[]|]; reflexivity.
  - unfold mul64. change U64 with (2 ^ 64). destruct (p * n <? 2 ^ 64); cbn [bind]; [now rewrite read_ok|reflexivity].
Qed.
(** An [RsVec] keeps the limbs of the vector it was built from. *)
Theorem C110_rsvec bv rs p n : wf bv -> rs_from_bit_vec bv = Ok rs ->
  rs_get_unchecked rs p = match getN (flat (bdata bv)) p with Some b => Ok (bitN b) | None => Panic end /\
  limbs_get_bits_unchecked (rdata rs) p n = read_stored (bdata bv) p n.
Proof.
  intros H E. pose proof (built bv rs H E) as G. unfold rs_get_unchecked. rewrite (good_data _ _ G). split; [apply get_stored|].
  apply read_ok. apply H.
Qed.

(** ** Writes change the addressed stored bit. *)
Lemma write_stored bv p f b : words (bdata bv) -> p < 64 * lenN (bdata bv) ->
  (forall w, w < U64 -> f w < U64 /\ forall j, j < 64 -> N.testbit (f w) j = if j =? p mod 64 then b (N.testbit w j) else N.testbit w j) ->
  exists bv', (let* d := upd_limb (bdata bv) (p / 64) f in Ok (mkbv d (blen bv))) = Ok bv' /\ blen bv' = blen bv /\
    lenN (bdata bv') = lenN (bdata bv) /\ words (bdata bv') /\
    flat (bdata bv') = set_nth (flat (bdata bv)) (N.to_nat p) (b (nthN false (flat (bdata bv)) p)).
Proof.
  intros Hw Hp Hf. assert (Hq : p / 64 < lenN (bdata bv)) by dlia. rewrite upd_limb_ok by auto. cbn [bind].
  eexists. split; [reflexivity|]. cbn [bdata blen]. set (v := nthN 0 (bdata bv) (p / 64)).
  assert (Hv : v < U64) by (unfold v; auto with words). destruct (Hf v Hv) as [F1 F2].
  split; [auto|]. split; [now rewrite lenN_set_nth|]. split; [auto with words|].
  apply list_ext with (d := false); [now rewrite lenN_set_nth, !lenN_flat, lenN_set_nth|].
  rewrite lenN_flat, lenN_set_nth. intros i Hi. rewrite nthN_flat by (rewrite lenN_set_nth; auto).
  rewrite nthN_set_nth, !nthN_flat by (rewrite ?lenN_flat; auto). rewrite bit_at_set by auto.
  destruct (N.eqb_spec (i / 64) (p / 64)) as [E|E], (N.eqb_spec i p) as [E'|E'].
  - subst i. rewrite F2 by (apply N.mod_lt; lia). rewrite N.eqb_refl. reflexivity.
  - rewrite F2 by (apply N.mod_lt; lia). destruct (N.eqb_spec (i mod 64) (p mod 64)); [dlia|]. unfold bit_at, v. now rewrite E.
  - now subst i.
  - reflexivity.
Qed.
Theorem C110_writes bv p v : wf bv ->
  if p <? lenN (flat (bdata bv)) then
    (exists bv', bv_set_unchecked bv p v = Ok bv' /\ wf bv' /\ lenN (bits bv') = lenN (bits bv) /\
       flat (bdata bv') = takeN p (flat (bdata bv)) ++ N.odd v :: dropN (p + 1) (flat (bdata bv))) /\
    (exists bv', bv_flip_bit_unchecked bv p = Ok bv' /\ wf bv' /\ lenN (bits bv') = lenN (bits bv) /\
       flat (bdata bv') = takeN p (flat (bdata bv)) ++ negb (nthN false (flat (bdata bv)) p) :: dropN (p + 1) (flat (bdata bv)))
  else bv_set_unchecked bv p v = Panic /\ bv_flip_bit_unchecked bv p = Panic.
Proof.
  intros [Hl Hw]. rewrite lenN_flat. unfold bv_set_unchecked, bv_flip_bit_unchecked. destruct (N.ltb_spec p (64 * lenN (bdata bv))) as [Hp|Hp].
  - assert (Hs : forall b, set_nth (flat (bdata bv)) (N.to_nat p) b = takeN p (flat (bdata bv)) ++ b :: dropN (p + 1) (flat (bdata bv))).
    { intros b. assert (Hp' : p < lenN (flat (bdata bv))) by (rewrite lenN_flat; auto). revert Hp'. generalize (flat (bdata bv)). clear. intros l Hp.
      apply list_ext with (d := false); [rewrite lenN_set_nth, lenN_app, lenN_cons, lenN_takeN, lenN_dropN; lia|].
      intros i Hi. rewrite lenN_set_nth in Hi. rewrite nthN_set_nth, nthN_app, lenN_takeN, nthN_cons, nthN_dropN by auto. replace (N.min p (lenN l)) with p by lia.
      destruct (N.ltb_spec i p), (N.eqb_spec i p), (N.eqb_spec (i - p) 0); try lia; [now rewrite nthN_takeN|]. f_equal. lia. }
    split.
    + destruct (write_stored bv p (fun w => N.lor (N.land w (not64 (shl64 1 (p mod 64)))) (shl64 (N.land v 1) (p mod 64))) (fun _ => N.odd v) Hw Hp)
        as (bv' & E & B1 & B2 & B3 & B4).
      { intros w Hv. split; [auto with words|]. intros j Hj.
        rewrite N.lor_spec, N.land_spec, not64_spec, shl64_1_spec by (apply N.mod_lt; lia). rewrite land_1, shl64_spec, N.bit0_odd.
        destruct (N.ltb_spec j 64), (N.eqb_spec j (p mod 64)); try lia; cbn [negb xorb andb].
        - subst j. rewrite andb_false_r, N.leb_refl, N.sub_diag. now destruct (N.odd v).
        - rewrite andb_true_r. destruct (N.leb_spec (p mod 64) j); cbn [andb]; [|apply orb_false_r].
          destruct (N.odd v); cbn [bitN]; rewrite ?N.bits_0, ?testbit_1; [|apply orb_false_r].
          destruct (N.eqb_spec (j - p mod 64) 0); [lia|apply orb_false_r]. }
      exists bv'. rewrite E, !lenN_bits, B1, B4, Hs. split; [auto|]. split; [split; congruence|auto].
    + destruct (write_stored bv p (fun w => N.lxor w (shl64 1 (p mod 64))) negb Hw Hp) as (bv' & E & B1 & B2 & B3 & B4).
      { intros w Hv. split; [auto with words|]. intros j Hj. rewrite N.lxor_spec, shl64_1_spec by (apply N.mod_lt; lia).
        destruct (N.eqb_spec j (p mod 64)); [apply xorb_true_r|apply xorb_false_r]. }
      exists bv'. rewrite E, !lenN_bits, B1, B4, Hs. split; [auto|]. split; [split; congruence|auto].
  - unfold upd_limb. rewrite idx_panic by dlia. auto.
Qed.

(** ** [append_bits_unchecked] merges the new bits with the stored ones behind the length. *)
Theorem C110_append bv w n : wf bv -> w < 2 ^ 64 ->
  exists bv', bv_append_bits_unchecked bv w n = Ok bv' /\ lenN (bits bv') = lenN (bits bv) + n /\
    lenN (flat (bdata bv')) = lenN (flat (bdata bv)) +
      (if (lenN (bits bv) mod 64 =? 0) || (64 <? lenN (bits bv) mod 64 + n) then 64 else 0) /\
    forall i, i < lenN (flat (bdata bv')) -> nthN false (flat (bdata bv')) i =
      if i <? lenN (bits bv) then nthN false (bits bv) i
      else nthN false (flat (bdata bv)) i || N.testbit w (i - lenN (bits bv)).
Proof.
  intros [Hl Hw] Hb. unfold bv_append_bits_unchecked. rewrite !lenN_bits, !lenN_flat.
  assert (Hov : forall i, 64 * lenN (bdata bv) <= i -> nthN false (flat (bdata bv)) i = false) by (intros; apply nthN_overflow; rewrite lenN_flat; auto).
  destruct (N.eqb_spec (blen bv mod 64) 0) as [E|E]; cbn [orb].
  - eexists. split; [reflexivity|]. rewrite lenN_bits. cbn [bdata blen]. split; [auto|]. rewrite lenN_flat, lenN_app. change (lenN [w]) with 1. split; [lia|].
    intros i Hi. rewrite nthN_flat by (rewrite lenN_app; auto). assert (E64 : 64 * lenN (bdata bv) = blen bv) by (rewrite Hl; dlia).
    rewrite bit_at_app, <- limb_exists, E64. destruct (N.ltb_spec i (blen bv)); [now rewrite nthN_bits|].
    rewrite Hov by lia. cbn [orb]. unfold bit_at. assert (Ei : (i - blen bv) / 64 = 0) by (apply N.div_small; lia). rewrite Ei.
    rewrite N.mod_small by lia. reflexivity.
  - assert (Hq : blen bv / 64 < lenN (bdata bv)) by (rewrite Hl; dlia). rewrite upd_limb_ok by auto. cbn [bind].
    set (d1 := set_nth _ _ _). assert (L1 : lenN d1 = lenN (bdata bv)) by apply lenN_set_nth.
    assert (E64 : 64 * lenN (bdata bv) = blen bv - blen bv mod 64 + 64) by (rewrite Hl; dlia).
    assert (B1 : forall i, i < 64 * lenN (bdata bv) -> bit_at d1 i = if i <? blen bv then bit_at (bdata bv) i else bit_at (bdata bv) i || N.testbit w (i - blen bv)).
    { intros i Hi. unfold d1. rewrite bit_at_set by auto. destruct (N.eqb_spec (i / 64) (blen bv / 64)) as [Ei|Ei].
      - rewrite N.lor_spec, shl64_spec. destruct (N.ltb_spec (i mod 64) 64); [|dlia]. cbn [andb].
        unfold bit_at. rewrite <- Ei. destruct (N.ltb_spec i (blen bv)), (N.leb_spec (blen bv mod 64) (i mod 64)); try dlia; cbn [andb].
        all: try apply orb_false_r. do 2 f_equal. dlia.
      - destruct (N.ltb_spec i (blen bv)); [reflexivity|dlia]. }
    destruct (N.ltb_spec 64 (blen bv mod 64 + n)) as [Hn|Hn]; eexists; (split; [reflexivity|]); rewrite lenN_bits; cbn [bdata blen]; (split; [auto|]);
      rewrite lenN_flat, ?lenN_app, L1; change (lenN [N.shiftr w (64 - blen bv mod 64)]) with 1; (split; [lia|]); intros i Hi.
    + rewrite nthN_flat by (rewrite lenN_app, L1; auto). rewrite bit_at_app, <- limb_exists, L1.
      destruct (N.ltb_spec i (64 * lenN (bdata bv))) as [L|L].
      * rewrite B1 by auto. destruct (N.ltb_spec i (blen bv)); [now rewrite nthN_bits|]. now rewrite nthN_flat.
      * rewrite Hov by auto. destruct (N.ltb_spec i (blen bv)); [lia|]. cbn [orb]. unfold bit_at.
        assert (Ei : (i - 64 * lenN (bdata bv)) / 64 = 0) by (apply N.div_small; lia). rewrite Ei.
        rewrite (N.mod_small (i - 64 * lenN (bdata bv))) by lia. unfold nthN. cbn [N.to_nat nth]. rewrite N.shiftr_spec'. f_equal. lia.
    + rewrite nthN_flat by (rewrite L1; lia). rewrite B1 by lia. destruct (N.ltb_spec i (blen bv)); [now rewrite nthN_bits|]. now rewrite nthN_flat by lia.
Qed.
(** Splitting behind the end underflows. *)
Theorem C110_split bv p : lenN (bits bv) < p -> bv_split_at_unchecked bv p = Panic.
Proof. rewrite lenN_bits. intros H. unfold bv_split_at_unchecked, sub. destruct (N.leb_spec p (blen bv)); [lia|reflexivity]. Qed.

(** ** Masked vectors read the storage of both vectors. *)
Theorem C110_masked op f v m x p n : bitwise op f -> wf v -> wf m -> masked_new v m op = Some x ->
  masked_get_unchecked x p = bv_get_unchecked (masked_to_bit_vec x) p /\
  masked_get_bits_unchecked x p n =
    if (n =? 64) && negb (p mod 64 =? 0) && (p + n <=? lenN (flat (bdata v))) then Ok 0
    else bv_get_bits_unchecked (masked_to_bit_vec x) p n.
Proof.
  intros Hop [Hv Wv] [Hm Wm] E. unfold masked_new in E. destruct (N.eqb_spec (blen v) (blen m)) as [El|]; [|discriminate]. injection E as <-.
  rewrite <- El in Hm. rewrite lenN_flat.
  unfold masked_get_unchecked, masked_get_bits_unchecked, bv_get_unchecked, bv_get_bits_unchecked, limbs_get_bits_unchecked, masked_to_bit_vec.
  cbn [mvec mmask mop bdata]. set (d := masked_limbs _).
  assert (Ld : lenN d = lenN (bdata v)).
  { unfold d, masked_limbs. cbn [mvec mmask]. rewrite lenN_map. unfold lenN in *. rewrite combine_length. lia. }
  assert (Hi : forall i, i < lenN (bdata v) -> idx d i = Ok (op (nthN 0 (bdata v) i) (nthN 0 (bdata m) i))).
  { intros i Hi. rewrite (idx_ok 0) by lia. f_equal. unfold d, masked_limbs. cbn [mvec mmask mop].
    rewrite (nthN_map _ (0, 0)) by (unfold lenN in *; rewrite combine_length; lia).
    unfold nthN. rewrite combine_nth by (unfold lenN in *; lia). reflexivity. }
  split.
  - destruct (N.lt_ge_cases (p / 64) (lenN (bdata v))) as [L|L].
    + rewrite Hi, !(idx_ok 0) by lia. reflexivity.
    + rewrite !idx_panic by lia. reflexivity.
  - destruct (N.leb_spec n 64) as [Hn|Hn]; cbn [assert bind].
    2:{ destruct (N.eqb_spec n 64); [lia|reflexivity]. }
    destruct (N.lt_ge_cases (p / 64) (lenN (bdata v))) as [L|L].
    2:{ rewrite !(idx_panic _ (p / 64)) by lia. cbn [bind]. destruct (N.eqb_spec n 64); [|reflexivity]. destruct (N.leb_spec (p + n) (64 * lenN (bdata v))); [dlia|]. now rewrite andb_false_r. }
    rewrite (Hi (p / 64)), !(idx_ok 0 _ (p / 64)) by lia. cbn [bind].
    destruct (N.eqb_spec (p mod 64 + n) 64) as [E1|E1], (N.leb_spec (p mod 64 + n) 64) as [E2|E2], (N.ltb_spec (p mod 64 + n) 64) as [E3|E3]; try lia.
    + assert (E0 : (n =? 64) && negb (p mod 64 =? 0) = false) by (destruct (N.eqb_spec n 64), (N.eqb_spec (p mod 64) 0); auto; lia).
      rewrite E0. cbn [andb]. f_equal. apply N.bits_inj. intros i. rewrite N.land_spec, wrapmask_spec, N.shiftr_spec' by lia.
      destruct (N.ltb_spec i n); [now rewrite andb_true_r|]. rewrite andb_false_r. apply testbit_U64_high; [|lia].
      apply Hop; auto with words.
    + destruct (N.eqb_spec n 64); [lia|]. cbn [andb]. rewrite wrapmask_ones, (N.mod_small n) by lia. now rewrite lowmask_ones by lia.
    + destruct (N.lt_ge_cases (p / 64 + 1) (lenN (bdata v))) as [L2|L2].
      2:{ rewrite !(idx_panic _ (p / 64 + 1)) by lia. cbn [bind]. destruct (N.leb_spec (p + n) (64 * lenN (bdata v))); [dlia|]. now rewrite andb_false_r. }
      rewrite (Hi (p / 64 + 1)), !(idx_ok 0 _ (p / 64 + 1)) by lia. cbn [bind].
      unfold shl64_chk. destruct (N.ltb_spec (64 - p mod 64) 64); [|lia]. cbn [bind].
      destruct (N.eqb_spec n 64) as [->|Hn64]; cbn [andb].
      * destruct (N.eqb_spec (p mod 64) 0); [lia|]. cbn [negb andb]. destruct (N.leb_spec (p + 64) (64 * lenN (bdata v))); [|dlia].
        change (lowmask (64 mod 64)) with 0. now rewrite N.land_0_r.
      * rewrite wrapmask_ones, (N.mod_small n) by lia. now rewrite lowmask_ones by lia.
Qed.

(** [ex_bv] has 70 bits in two limbs; the stored bits behind the length are ones. *)
Example C110_ex : wf ex_bv /\ bv_get_bits_unchecked ex_bv 66 62 = read_stored (bdata ex_bv) 66 62 /\
  bv_get_bits_unchecked ex_bv 66 63 = Panic /\ bv_get_bits_unchecked ex_bv 127 0 = Ok 0 /\ bv_get_bits_unchecked ex_bv 128 0 = Panic /\
  bv_unpack_element_unchecked ex_bv (2 ^ 63) 2 = Panic /\
  (exists bv', bv_append_bits_unchecked ex_bv 0 3 = Ok bv' /\ dropN 70 (bits bv') = [true; true; true]) /\
  bv_split_at_unchecked ex_bv 71 = Panic /\
  (exists x, masked_new ex_bv ex_bv N.land = Some x /\ masked_get_bits_unchecked x 1 64 = Ok 0 /\
  masked_get_bits_unchecked x 65 64 = Panic /\ masked_get_bits_unchecked x 100 4 = Ok 15 /\ masked_get_unchecked x 127 = Ok 1).
Proof.
  split; [apply ex_bv_wf|]. repeat (split; [vm_compute; reflexivity|]). split; [eexists; split; [reflexivity|vm_compute; reflexivity]|].
  split; [reflexivity|]. eexists. split; [reflexivity|]. vm_compute. auto.
Qed.
