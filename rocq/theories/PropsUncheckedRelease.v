(** * Properties C124 and C125: reads at a position that is a product, in both builds. *)
From Verif Require Import Base Spec BaseFacts WordFacts BitVecModel BitVecProofs BitVecProofs2 PropsBitVec
  RsVecModel RsVecProofs RsVecSelect RsEqProofs EFModel EFProofs EFQuery PropsEF PropsEFUnchecked
  GenIterModel ReleaseModel PropsRelease PropsAgree PropsStored UncheckedReleaseModel.

(** ** C124: [unpack_element]. Element [i] of width [n] is in bounds if [(i + 1) * n] bits exist. *)
(** What the documentation says: [None] unless the element is in bounds. *)
Definition unpacked (l : list bool) (i n : N) : option N :=
  if (1 <=? n) && (n <=? 64) && ((i + 1) * n <=? lenN l) then Some (value (sliceN (i * n) n l)) else None.

(** Debug build, for all arguments. *)
Theorem C124_debug_partial bv i n :
  wf bv -> i < 2 ^ 64 -> n < 2 ^ 64 ->
  bv_unpack_element bv i n =
    if 2 ^ 64 <=? i * n then Panic
    else if (1 <=? n) && (n <=? 64) && (2 ^ 64 <=? (i + 1) * n) then Panic
    else Ok (unpacked (bits bv) i n).
Proof.
  intros H Hi Hn. unfold bv_unpack_element, mul64, unpacked. change U64 with (2 ^ 64).
  destruct (N.leb_spec (2 ^ 64) (i * n)), (N.ltb_spec (i * n) (2 ^ 64)); try lia; cbn [bind]; [reflexivity|].
  replace ((i + 1) * n) with (i * n + n) by lia. destruct (N.leb_spec (2 ^ 64) (i * n + n)) as [L|L].
  - rewrite andb_true_r. unfold bv_get_bits, add64. change U64 with (2 ^ 64).
    destruct (N.ltb_spec 64 n), (N.leb_spec n 64), (N.eqb_spec n 0), (N.leb_spec 1 n); try (exfalso; lia); try reflexivity.
    destruct (N.ltb_spec (i * n + n) (2 ^ 64)); [lia|]. reflexivity.
  - rewrite andb_false_r. now apply C04_get_bits_partial.
Qed.

(** Release build, for all arguments: the bits at the wrapped position are read. *)
Theorem C124_release bv i n :
  wf bv -> lenN (bits bv) <= 2 ^ 64 - 128 -> i < 2 ^ 64 -> n < 2 ^ 64 ->
  bv_unpack_element_rel bv i n =
    let p := (i * n) mod 2 ^ 64 in
    if (1 <=? n) && (n <=? 64) then
      if p + n <=? lenN (bits bv) then Ok (Some (value (sliceN p n (bits bv))))
      else if (2 ^ 64 <=? p + n) && (p + n - 2 ^ 64 <=? lenN (bits bv)) then Panic
      else Ok None
    else Ok None.
Proof.
  intros H Hb Hi Hn. unfold bv_unpack_element_rel, wrapping_mul. change U64 with (2 ^ 64). cbv zeta.
  assert (Hp : (i * n) mod 2 ^ 64 < 2 ^ 64) by (apply N.mod_lt; lia). revert Hp. generalize ((i * n) mod 2 ^ 64). intros p Hp.
  rewrite C88_get_bits_release by auto.
  destruct (N.ltb_spec (p + n) (2 ^ 64)) as [L|L], (N.leb_spec (2 ^ 64) (p + n)); try (exfalso; lia); cbn [andb].
  - rewrite C04_get_bits_partial by auto. destruct ((1 <=? n) && (n <=? 64)); cbn [andb]; [|reflexivity].
    now destruct (p + n <=? lenN (bits bv)).
  - destruct ((1 <=? n) && (n <=? 64)); cbn [andb]; [|reflexivity].
    destruct (N.leb_spec (p + n) (lenN (bits bv))); [exfalso; clear - L Hb H1; lia|reflexivity].
Qed.

(** Without overflow both builds do what the documentation says. *)
Theorem C124_partial bv i n :
  wf bv -> lenN (bits bv) <= 2 ^ 64 - 128 -> n < 2 ^ 64 -> (i + 1) * n < 2 ^ 64 ->
  bv_unpack_element bv i n = Ok (unpacked (bits bv) i n) /\
  (i < 2 ^ 64 -> bv_unpack_element_rel bv i n = Ok (unpacked (bits bv) i n)).
Proof.
  intros H Hb Hn Ho. assert (E1 : (i + 1) * n = i * n + n) by lia. split.
  - unfold bv_unpack_element. rewrite mul64_ok by (change U64 with (2 ^ 64); lia). cbn [bind]. unfold unpacked. rewrite E1.
    apply C04_get_bits_partial; [auto|lia].
  - intros Hi. rewrite C124_release by auto. cbv zeta. unfold unpacked. rewrite E1 in *. rewrite N.mod_small by lia.
    destruct ((1 <=? n) && (n <=? 64)); cbn [andb]; [|reflexivity]. destruct (i * n + n <=? lenN (bits bv)); [reflexivity|].
    destruct (N.leb_spec (2 ^ 64) (i * n + n)); [lia|]. reflexivity.
Qed.

(** A release build returns the element of another index, for every element of a vector packed with
    an even width: an index [2 ^ 63] higher gives the same answer. *)
Theorem C124_alias bv i n :
  wf bv -> lenN (bits bv) <= 2 ^ 64 - 128 -> 1 <= n <= 64 -> n mod 2 = 0 -> (i + 1) * n <= lenN (bits bv) ->
  bv_unpack_element_rel bv (i + 2 ^ 63) n = Ok (Some (value (sliceN (i * n) n (bits bv)))) /\
  lenN (bits bv) < (i + 2 ^ 63 + 1) * n.
Proof.
  intros H Hb Hn He Hi. assert (Hi' : i < 2 ^ 63) by nia. split; [|nia].
  rewrite C124_release by (auto; lia). cbv zeta.
  assert (E : ((i + 2 ^ 63) * n) mod 2 ^ 64 = i * n).
  { replace ((i + 2 ^ 63) * n) with (i * n + n / 2 * 2 ^ 64).
    - rewrite N.mod_add by lia. apply N.mod_small. lia.
    - rewrite N.mul_add_distr_r. f_equal. change (2 ^ 64) with (2 * 2 ^ 63). pose proof (N.div_mod n 2 ltac:(lia)). generalize (2 ^ 63). intros. nia. }
  rewrite E. destruct (N.leb_spec 1 n), (N.leb_spec n 64); try lia. cbn [andb].
  destruct (N.leb_spec (i * n + n) (lenN (bits bv))); [reflexivity|lia].
Qed.

(** The documented claim "safe to use with any index and any size n <= 64; [None] if out of bounds"
    (bit_vec/mod.rs 1213-1215) is false in both builds. *)
Theorem C124_refuted :
  (exists bv i, wf bv /\ i < 2 ^ 64 /\ lenN (bits bv) < (i + 1) * 10 /\ bv_unpack_element bv i 10 = Panic) /\
  (exists bv i x, wf bv /\ i < 2 ^ 64 /\ lenN (bits bv) < (i + 1) * 10 /\ bv_unpack_element_rel bv i 10 = Ok (Some x)).
Proof.
  split; [exists ex_bv, (2 ^ 63 + 6)|exists ex_bv, (2 ^ 63 + 6), 0x15F]; (split; [apply ex_bv_wf|]); vm_compute; auto.
Qed.

(** The unchecked version for widths up to 64, in terms of the stored limbs (wider ones: C137). *)
Lemma limbs_rel_ok d p n : n <= 64 -> limbs_get_bits_unchecked_rel d p n = limbs_get_bits_unchecked d p n.
Proof.
  intros Hn. unfold limbs_get_bits_unchecked_rel, limbs_get_bits_unchecked, wrapping_add. change U64 with (2 ^ 64). rewrite assert_true by lia. cbn [bind].
  assert (p mod 64 < 64) by (apply N.mod_lt; lia). rewrite (N.mod_small (p mod 64 + n)), (N.mod_small n (2 ^ 32)) by lia.
  destruct (idx d (p / 64)); [|reflexivity|reflexivity]. cbn [bind]. destruct (N.leb_spec (p mod 64 + n) 64); [reflexivity|].
  destruct (idx d (p / 64 + 1)); [|reflexivity|reflexivity]. cbn [bind]. unfold shl64_chk. destruct (N.ltb_spec (64 - p mod 64) 64); [|lia]. cbn [bind]. now rewrite (N.mod_small (64 - p mod 64)) by lia.
Qed.
Theorem C124_unchecked_release bv i n :
  wf bv -> n <= 64 -> bv_unpack_element_unchecked_rel bv i n = read_stored (bdata bv) ((i * n) mod 2 ^ 64) n.
Proof.
  intros [_ Hw] Hn. unfold bv_unpack_element_unchecked_rel, bv_get_bits_unchecked_rel, wrapping_mul. change U64 with (2 ^ 64). rewrite limbs_rel_ok by auto. now apply read_ok.
Qed.

Example C124_ex : wf ex_bv /\ lenN (bits ex_bv) = 70 /\
  bv_unpack_element ex_bv 6 10 = Ok (Some 0x15F) /\ bv_unpack_element ex_bv 7 10 = Ok None /\
  bv_unpack_element ex_bv (2 ^ 63) 10 = Panic /\
  bv_unpack_element_rel ex_bv 6 10 = Ok (Some 0x15F) /\ bv_unpack_element_rel ex_bv 7 10 = Ok None /\
  bv_unpack_element_rel ex_bv (2 ^ 63 + 6) 10 = Ok (Some 0x15F) /\ bv_unpack_element_rel ex_bv (2 ^ 63 + 7) 10 = Ok None /\
  bv_unpack_element_rel ex_bv (2 ^ 64 - 1) 10 = Panic /\ bv_unpack_element_rel ex_bv 0 0 = Ok None.
Proof. split; [apply ex_bv_wf|]. vm_compute. auto 20. Qed.

(** ** C125: [get_unchecked] of an Elias-Fano vector in a release build. *)
Theorem C125_get_unchecked data w e i :
  nondecreasing data -> Forall (fun x => x < 2 ^ 64) data -> w < 64 -> ef_from_slice w data = Ok e ->
  let n := lenN data in
  let zero := nthN 0 data 0 in
  let top := (nthN 0 data (n - 1) - zero) / 2 ^ w in
  2 + n + top < 2 ^ 64 -> i < 2 ^ 64 -> i * w < 2 ^ 64 ->
  ef_get_unchecked_rel e i =
    match getN data i with
    | Some x => Ok x
    | None =>
        if n =? 0 then Panic
        else if (i + 1) * w <=? 64 * ((n * w + 63) / 64)
        then Ok (((1 + n + top + 2 ^ 64 - i) * 2 ^ w + zero) mod 2 ^ 64)
        else Panic
    end.
Proof.
  intros Hs Hd Hw E n zero top Hm Hi Ho.
  assert (EW : forall s, s < 2 ^ 64 -> wrapping_sub (wrapping_sub s i) 1 = (s + 2 ^ 64 - i - 1 + 2 ^ 64) mod 2 ^ 64).
  { intros s Hs'. unfold wrapping_sub. change U64 with (2 ^ 64). replace (s + 2 ^ 64 - i - 1 + 2 ^ 64) with ((s + 2 ^ 64 - i) + (2 ^ 64 - 1)) by lia.
    rewrite <- N.add_mod_idemp_l by lia. f_equal. pose proof (N.mod_lt (s + 2 ^ 64 - i) (2 ^ 64) ltac:(lia)). lia. }
  destruct (ef_built data w e Hs Hd Hw E) as [(-> & En & Ez & Gu)|[Hne G]].
  - rewrite getN_none by (cbn; lia). change (n =? 0) with true. cbv iota. unfold ef_get_unchecked_rel.
    rewrite (rs_select1_ok bv_new) by (auto using bv_new_wf).
    rewrite select_spec_over by (change (count true (bits bv_new)) with 0; lia). cbn [bind].
    destruct (ef_empty w) as (u & E' & _). rewrite E' in E. injection E as <-. cbn [ef_lower ef_w].
    unfold bv_get_bits_unchecked, limbs_get_bits_unchecked. rewrite assert_true by lia. cbn [bind].
    rewrite idx_panic by (change (lenN (bdata bv_new)) with 0; lia). reflexivity.
  - destruct (N.eqb_spec n 0) as [|_]; [subst n; lia|].
    destruct (N.ltb_spec i (lenN data)) as [L|L].
    + rewrite (getN_ok 0) by auto. unfold ef_get_unchecked_rel. rewrite (sel1 data w e) by auto. cbn [bind].
      assert (HU : eU data w i <= top) by (apply (eU_mono data w Hs Hd Hne Hw i (n - 1)); subst n; lia).
      pose proof (low_ok data w e G i L) as El. unfold ef_low in El. unfold wrapping_mul. change U64 with (2 ^ 64).
      rewrite (eg_w _ _ _ G) in *. rewrite N.mod_small by auto. rewrite El. cbn [bind]. f_equal.
      unfold ePos. assert (HB : eU data w i + i + 1 < 2 ^ 64) by (clearbody top; subst n; clear - HU Hm L; lia).
      rewrite (wsub_ge _ i), (wsub_ge _ 1) by (clear - HB; lia).
      replace (eU data w i + i + 1 - i - 1) with (eU data w i) by lia.
      destruct (uL_lt data w e Hs Hd Hne Hw G i L) as (Hu & _ & _). pose proof (val_ok data w e Hs Hd Hne Hw G i L) as Ev.
      unfold shl64. rewrite N.shiftl_mul_pow2, N.mod_small by auto. unfold add64, wrapping_add in *.
      destruct (N.ltb_spec (N.lor (eU data w i * 2 ^ w) (eL data w i) + ef_zero e) U64); [|discriminate]. injection Ev as Ev. rewrite Ev in *.
      now apply N.mod_small.
    + rewrite getN_none by auto. unfold ef_get_unchecked_rel. rewrite (sel1_over data w e) by auto. cbn [bind].
      rewrite (eg_zero _ _ _ G), (eg_w _ _ _ G). unfold wrapping_mul. change U64 with (2 ^ 64). rewrite N.mod_small by auto.
      pose proof (eg_low_over _ _ _ G i L) as El. unfold ef_low in El. rewrite (eg_w _ _ _ G), (eg_low_len _ _ _ G) in El. rewrite El. clear El.
      assert (EL : ((i + 1) * w <=? 64 * (if w =? 0 then n else (n * w + 63) / 64)) = ((i + 1) * w <=? 64 * ((n * w + 63) / 64))).
      { destruct (N.eqb_spec w 0) as [->|]; auto. rewrite !N.mul_0_r. now destruct (N.leb_spec 0 (64 * n)), (N.leb_spec 0 (64 * ((0 + 63) / 64))); try lia. }
      fold n. rewrite EL. clear EL. destruct ((i + 1) * w <=? 64 * ((n * w + 63) / 64)); cbn [bind]; [|reflexivity].
      f_equal. change (eU data w (n - 1)) with top. rewrite EW by auto. rewrite N.lor_0_r. unfold shl64, wrapping_add. change U64 with (2 ^ 64).
      rewrite N.shiftl_mul_pow2, N.add_mod_idemp_l by lia. 
      replace (2 + n + top + 2 ^ 64 - i - 1 + 2 ^ 64) with (1 + n + top + 2 ^ 64 - i + 1 * 2 ^ 64) by lia. rewrite N.mod_add by lia.
      rewrite <- N.add_mod_idemp_l, N.mul_mod_idemp_l, N.add_mod_idemp_l by lia. reflexivity.
Qed.

(** Whenever a debug build returns a value, a release build returns the same. *)
Theorem C125_agrees data w e i v :
  nondecreasing data -> Forall (fun x => x < 2 ^ 64) data -> w < 64 -> ef_from_slice w data = Ok e ->
  let n := lenN data in
  2 + n + (nthN 0 data (n - 1) - nthN 0 data 0) / 2 ^ w < 2 ^ 64 -> i < 2 ^ 64 -> i * w < 2 ^ 64 ->
  ef_get_unchecked e i = Ok v -> ef_get_unchecked_rel e i = Ok v.
Proof.
  intros Hs Hd Hw E n Hm Hi Ho Ev. rewrite (C96_get_unchecked data w) in Ev by auto. rewrite (C125_get_unchecked data w) by auto.
  destruct (getN data i); [auto|]. subst n. destruct (lenN data =? 0); [discriminate|]. unfold past_end in Ev. cbv zeta in Ev.
  destruct (N.ltb_spec i (2 + lenN data + (nthN 0 data (lenN data - 1) - nthN 0 data 0) / 2 ^ w)) as [L|L]; [|discriminate]. cbn [andb] in Ev.
  destruct ((i + 1) * w <=? _); [|discriminate]. revert Ev Hm L. generalize ((nthN 0 data (lenN data - 1) - nthN 0 data 0) / 2 ^ w). intros top.
  generalize (lenN data) (nthN 0 data 0). intros n zero Ev Hm L. destruct (N.ltb_spec (((1 + n + top - i) * 2 ^ w) mod 2 ^ 64 + zero) (2 ^ 64)) as [Lz|]; [|discriminate]. rewrite <- Ev. f_equal.
  replace (1 + n + top + 2 ^ 64 - i) with (1 + n + top - i + 1 * 2 ^ 64) by (clear - L Hi Hm; lia).
  rewrite <- N.add_mod_idemp_l, <- N.mul_mod_idemp_l, N.mod_add, N.mul_mod_idemp_l by lia. now apply N.mod_small.
Qed.

(** The documentation says of an index that exceeds the length: "the function will panic". For a
    vector without low bits a release build never panics. *)
Theorem C125_never_panics data e i :
  nondecreasing data -> Forall (fun x => x < 2 ^ 64) data -> data <> [] -> ef_from_slice 0 data = Ok e ->
  2 + lenN data + (nthN 0 data (lenN data - 1) - nthN 0 data 0) < 2 ^ 64 -> i < 2 ^ 64 ->
  exists v, ef_get_unchecked_rel e i = Ok v.
Proof.
  intros Hs Hd Hne E Hm Hi. rewrite (C125_get_unchecked data 0); auto; [|lia|rewrite N.pow_0_r, N.div_1_r; auto|lia].
  destruct (getN data i); [eauto|]. destruct (N.eqb_spec (lenN data) 0) as [E0|]; [destruct data; [easy|rewrite lenN_cons in E0; lia]|].
  rewrite N.mul_0_r. destruct (N.leb_spec 0 (64 * ((lenN data * 0 + 63) / 64))); [eauto|lia].
Qed.

Definition ex_dense : list N := [5; 6; 7; 8; 9].
Example C125_ex :
  ef_get_unchecked_rel ex_efv 6 = Ok 90 /\ ef_get_unchecked_rel ex_efv 7 = Ok 103 /\ ef_get_unchecked ex_efv 14 = Panic /\
  ef_get_unchecked_rel ex_efv 14 = Ok (2 ^ 64 - 9) /\ ef_get_unchecked_rel ex_efv 16 = Panic /\
  ef_width ex_dense = 0 /\ (let* e := ef_from_slice 0 ex_dense in ef_get_unchecked e (2 ^ 63)) = Panic /\
  (let* e := ef_from_slice 0 ex_dense in ef_get_unchecked_rel e (2 ^ 63)) = Ok (2 ^ 63 + 15).
Proof. repeat split; vm_compute; reflexivity. Qed.

