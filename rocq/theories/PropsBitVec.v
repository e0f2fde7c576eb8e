(** * Properties C01-C11: bit vectors.

    Reading guide: [bits bv] is the list of bits of [bv] (bit [i] is bit [i mod 64] of limb
    [i / 64]), [wf bv] says that there are just enough limbs and that limbs are 64-bit words.
    [C00_bits_observable] states that the public accessors show exactly [bits]. *)
From Verif Require Import Base Spec BaseFacts WordFacts BitVecModel BitVecProofs BitVecProofs2 BitVecEdit.

(** [len], [get], [is_bit_set] show exactly the list [bits bv]. *)
Theorem C00_bits_observable bv p :
  wf bv ->
  bv_length bv = lenN (bits bv) /\
  bv_get bv p = Ok (option_map bitN (getN (bits bv) p)) /\
  bv_is_bit_set bv p = Ok (getN (bits bv) p).
Proof.
  intros H. rewrite lenN_bits. split; [reflexivity|]. split; [now apply bv_get_spec|now apply bv_is_bit_set_spec].
Qed.

(** A vector of length 70 with junk above its length, used in the examples. *)
Definition ex_bv : bitvec := mkbv [0xF0F0F0F0F0F0F0F0; 0xFFFFFFFFFFFFFFD5] 70.
Lemma ex_bv_wf : wf ex_bv.
Proof. split; [reflexivity|]. repeat constructor. Qed.

(** ** C01 *)
Theorem C01_append bv :
  wf bv ->
  (forall b, exists bv', bv_append bv b = Ok bv' /\ wf bv' /\ bits bv' = bits bv ++ [b]) /\
  (forall w, w < 2 ^ 64 ->
     exists bv', bv_append_bit bv w = Ok bv' /\ wf bv' /\ bits bv' = bits bv ++ [N.odd w]) /\
  (forall w, w < 2 ^ 64 ->
     exists bv', bv_append_word bv w = Ok bv' /\ wf bv' /\ bits bv' = bits bv ++ lowbits w 64) /\
  (forall w n, w < 2 ^ 64 -> 1 <= n <= 64 ->
     exists bv', bv_append_bits bv w n = Ok bv' /\ wf bv' /\ bits bv' = bits bv ++ lowbits w n).
Proof.
  intros H. repeat split; intros.
  - now apply bv_append_ok.
  - rewrite <- N.bit0_odd. now apply bv_append_bit_ok.
  - now apply bv_append_word_ok.
  - apply bv_append_bits_ok; tauto.
Qed.
Example C01_ex :
  wf ex_bv /\
  match bv_append_bits ex_bv 0xABC 60 with
  | Ok b => bits b = bits ex_bv ++ lowbits 0xABC 60 /\ lenN (bdata b) = 3
  | _ => False
  end.
Proof. split; [apply ex_bv_wf|]. vm_compute. auto. Qed.

(** ** C02: every program of constructor and editing calls acts like the same edits of a list;
    it panics exactly when the list program has an out-of-range [flip_bit] or an [append_bits] of
    more than 64 bits. *)
Theorem C02_edit_programs c es :
  ctor_ok c -> Forall edit_ok es ->
  match run_spec (ctor_spec c) es with
  | Some l => exists bv, (let* bv0 := ctor_model c in run_model bv0 es) = Ok bv /\
                wf bv /\ bv_length bv = lenN l /\
                (forall p, bv_get bv p = Ok (option_map bitN (getN l p))) /\ bits bv = l
  | None => (let* bv0 := ctor_model c in run_model bv0 es) = Panic
  end.
Proof.
  intros Hc He. destruct (ctor_ok_model c Hc) as (bv & -> & H & <-). cbn [bind].
  pose proof (run_refines es bv H He) as G. destruct (run_spec (bits bv) es); auto.
  destruct G as (bv' & E & H' & <-). exists bv'. repeat split; auto; try apply H'.
  - symmetry. apply lenN_bits.
  - intros p. now apply bv_get_spec.
Qed.
Definition C02_prog : list edit :=
  [EAppendBits 0xFFFF 3; EDropLast 70; ESet 1 0; ESet 500 1; EFlip 2; EAppend true;
   EExtend (CPack 8 [200; 17; 3] 11); EAppendWord 5].
Example C02_ex :
  ctor_ok (CLimbs [7; 0xFFFFFFFFFFFFFFFF]) /\ Forall edit_ok C02_prog /\
  option_map lenN (run_spec (ctor_spec (CLimbs [7; 0xFFFFFFFFFFFFFFFF])) C02_prog) = Some 159.
Proof.
  split; [repeat constructor|]. split; [|reflexivity].
  repeat constructor; try reflexivity; cbn; try lia.
Qed.
Example C02_ex_panic : run_spec (ctor_spec (CZeros 3)) [EFlip 3] = None.
Proof. reflexivity. Qed.

(** ** C03 *)
Theorem C03_drop_last bv n :
  wf bv -> exists bv', bv_drop_last bv n = Ok bv' /\ wf bv' /\
                       bits bv' = takeN (lenN (bits bv) - n) (bits bv).
Proof. intros. rewrite lenN_bits. now apply bv_drop_last_ok. Qed.
Theorem C03_extend bv o :
  wf bv -> wf o -> exists bv', bv_extend bv o = Ok bv' /\ wf bv' /\ bits bv' = bits bv ++ bits o.
Proof. apply bv_extend_ok. Qed.
Theorem C03_extend_iter bv os :
  wf bv -> Forall wf os ->
  exists bv', bv_extend_iter bv os = Ok bv' /\ wf bv' /\ bits bv' = bits bv ++ concat (map bits os).
Proof.
  intros H Hos. unfold bv_extend_iter. revert bv H. induction Hos as [|o os Ho Hos IH]; intros bv H.
  - exists bv. cbn. rewrite app_nil_r. auto.
  - destruct (bv_extend_ok bv o H Ho) as (b1 & E1 & H1 & Hb1). cbn [forM map concat]. rewrite E1. cbn [bind].
    destruct (IH b1 H1) as (b2 & E2 & H2 & Hb2). exists b2. rewrite Hb2, Hb1, app_assoc. auto.
Qed.
Theorem C03_split_at bv p :
  wf bv ->
  (p <= lenN (bits bv) ->
     exists a b, bv_split_at bv p = Ok (inl (a, b)) /\ wf a /\ wf b /\
                 bits a = takeN p (bits bv) /\ bits b = dropN p (bits bv) /\
                 bits a ++ bits b = bits bv) /\
  (lenN (bits bv) < p -> bv_split_at bv p = Ok (inr bv)).
Proof.
  intros H. rewrite lenN_bits. unfold bv_split_at. split; intros Hp.
  - destruct (N.ltb_spec (blen bv) p); [lia|].
    destruct (bv_split_at_unchecked_ok bv p H Hp) as (a & b & -> & Ha & Hb & Ea & Eb). cbn [bind].
    exists a, b. repeat split; auto; try apply Ha; try apply Hb. rewrite Ea, Eb. apply takeN_dropN.
  - destruct (N.ltb_spec (blen bv) p); [reflexivity|lia].
Qed.
Example C03_ex :
  wf ex_bv /\ 67 <= lenN (bits ex_bv) /\
  match bv_split_at ex_bv 3 with
  | Ok (inl (a, b)) => lenN (bits a) = 3 /\ lenN (bits b) = 67
  | _ => False
  end.
Proof. split; [apply ex_bv_wf|]. vm_compute. split; [discriminate|auto]. Qed.

(** ** C04 *)
(** [pos + n < 2^64] excludes the arithmetic overflow, see [C04_get_bits_refuted]. *)
Theorem C04_get_bits_partial bv pos n :
  wf bv -> pos + n < 2 ^ 64 ->
  bv_get_bits bv pos n = Ok (if (1 <=? n) && (n <=? 64) && (pos + n <=? lenN (bits bv))
                             then Some (value (sliceN pos n (bits bv))) else None).
Proof. intros. rewrite lenN_bits. now apply bv_get_bits_spec. Qed.
Example C04_ex : wf ex_bv /\ bv_get_bits ex_bv 60 10 = Ok (Some 0x15F).
Proof. split; [apply ex_bv_wf|reflexivity]. Qed.
(** "never panics" fails: [pos + len] overflows for pos close to usize::MAX. *)
Theorem C04_get_bits_refuted :
  exists bv pos n, wf bv /\ pos < 2 ^ 64 /\ n < 2 ^ 64 /\ bv_get_bits bv pos n = Panic.
Proof.
  exists ex_bv, (2 ^ 64 - 1), 1. split; [apply ex_bv_wf|]. vm_compute. auto.
Qed.

(** ** C05: packing, then unpacking. [maxb] is the width of the element type. *)
Theorem C05_pack maxb l n :
  In maxb [8; 16; 32; 64] -> Forall (fun w => w < 2 ^ maxb) l -> 1 <= n ->
  exists bv, bv_pack maxb l n = Ok bv /\ wf bv /\ lenN (bits bv) = n * lenN l /\
             bits bv = concat (map (fun w => lowbits w n) l) /\
             (n <= 64 -> n * lenN l + n < 2 ^ 64 ->
              forall i, i <= lenN l ->
              bv_unpack_element bv i n = Ok (option_map (fun w => w mod 2 ^ n) (getN l i))).
Proof.
  intros Hm Hl Hn. destruct (bv_pack_ok maxb l n) as (bv & E & H & Hb); auto; try (cbn in Hm; lia).
  exists bv. repeat split; auto; try apply H.
  - now rewrite Hb, lenN_concat_lowbits.
  - intros Hn64 Ho i Hi. unfold bv_unpack_element.
    change (2 ^ 64) with U64 in Ho. rewrite mul64_ok by nia. cbn [bind].
    rewrite bv_get_bits_spec by (auto; nia). f_equal.
    pose proof (lenN_bits bv) as Hlen. rewrite Hb, lenN_concat_lowbits in Hlen.
    destruct (N.leb_spec 1 n), (N.leb_spec n 64); try lia. cbn [andb].
    destruct (N.lt_ge_cases i (lenN l)) as [L|L].
    + destruct (N.leb_spec (i * n + n) (blen bv)); [|nia].
      rewrite (getN_ok 0) by auto. cbn [option_map]. f_equal.
      now rewrite Hb, slice_concat_lowbits, value_lowbits.
    + destruct (N.leb_spec (i * n + n) (blen bv)); [nia|]. now rewrite getN_none.
Qed.
Example C05_ex :
  In 8 [8; 16; 32; 64] /\ Forall (fun w => w < 2 ^ 8) [200; 17; 3] /\
  match bv_pack 8 [200; 17; 3] 7 with Ok bv => bv_unpack_element bv 0 7 = Ok (Some 72) | _ => False end.
Proof. split; [cbn; tauto|]. split; [repeat constructor|reflexivity]. Qed.

(** ** C06 *)
Theorem C06_counts bv :
  wf bv -> bv_count_ones bv = Ok (count true (bits bv)) /\ bv_count_zeros bv = Ok (count false (bits bv)).
Proof. intros. split; [now apply bv_count_ones_ok|now apply bv_count_zeros_ok]. Qed.
Example C06_ex : wf ex_bv /\ bv_count_ones ex_bv = Ok 35.
Proof. split; [apply ex_bv_wf|reflexivity]. Qed.

(** ** C07 *)
(** Missing: lengths that are positive multiples of 64, for which it is false
    ([C07_eq_refuted]). *)
Theorem C07_eq_partial a b :
  wf a -> wf b -> lenN (bits a) mod 64 <> 0 \/ lenN (bits a) = 0 ->
  exists r, bv_eq a b = Ok r /\ (r = true <-> bits a = bits b).
Proof. intros Ha Hb. rewrite lenN_bits. now apply bv_eq_spec. Qed.
Example C07_ex :
  wf ex_bv /\ wf (mkbv [0xF0F0F0F0F0F0F0F0; 0x15] 70) /\ bits ex_bv = bits (mkbv [0xF0F0F0F0F0F0F0F0; 0x15] 70)
  /\ bdata ex_bv <> [0xF0F0F0F0F0F0F0F0; 0x15].
Proof. split; [apply ex_bv_wf|]. split; [split; [reflexivity|repeat constructor]|]. split; [reflexivity|discriminate]. Qed.
Theorem C07_eq_refuted :
  exists a b, wf a /\ wf b /\ bv_eq a b = Ok true /\ bits a <> bits b.
Proof.
  exists (bv_from_limbs [1]), (bv_from_limbs [2]).
  split; [split; [reflexivity|repeat constructor]|]. split; [split; [reflexivity|repeat constructor]|].
  split; [reflexivity|]. vm_compute. discriminate.
Qed.
(** What holds for all lengths: equality compares everything but, when the length is a multiple
    of 64, the last 64 bits. *)
Theorem C51_eq_exact a b :
  wf a -> wf b ->
  exists r, bv_eq a b = Ok r /\
    (r = true <-> lenN (bits a) = lenN (bits b) /\
       let k := if lenN (bits a) mod 64 =? 0 then lenN (bits a) - 64 else lenN (bits a) in
       takeN k (bits a) = takeN k (bits b)).
Proof. intros Ha Hb. rewrite !lenN_bits. now apply bv_eq_visible. Qed.

(** ** C08 *)
Theorem C08_hash a b :
  wf a -> wf b ->
  (bv_eq a b = Ok true -> bv_hash a = bv_hash b) /\
  (bits a = bits b -> bv_hash a = bv_hash b) /\
  exists h, bv_hash a = Ok h.
Proof.
  intros Ha Hb. split; [now apply bv_hash_eq|]. split.
  - intros H. apply bv_hash_eq; auto. now apply bv_eq_refl_bits.
  - rewrite bv_hash_ok by auto. eauto.
Qed.
Example C08_ex :
  wf ex_bv /\ wf (mkbv [0xF0F0F0F0F0F0F0F0; 0x15] 70) /\
  bv_hash ex_bv = Ok [70; 0xF0F0F0F0F0F0F0F0; 0x15] /\ bv_eq ex_bv (mkbv [0xF0F0F0F0F0F0F0F0; 0x15] 70) = Ok true.
Proof. split; [apply ex_bv_wf|]. split; [split; [reflexivity|repeat constructor]|]. split; reflexivity. Qed.

(** ** C09: [bitwise op f] says that the word operation acts on each bit as [f]. *)
Theorem C09_apply_mask op f v m :
  bitwise op f -> wf v -> wf m ->
  (lenN (bits v) = lenN (bits m) ->
     exists r, bv_apply_mask op v m = Ok (Some r) /\ wf r /\ bits r = zip_with f (bits v) (bits m)) /\
  (lenN (bits v) <> lenN (bits m) -> bv_apply_mask op v m = Ok None).
Proof.
  intros. rewrite !lenN_bits. split; [now apply bv_apply_mask_ok|apply bv_apply_mask_err].
Qed.
Theorem C09_masked_view op f v m :
  bitwise op f -> wf v -> wf m ->
  (lenN (bits v) <> lenN (bits m) -> masked_new v m op = None) /\
  (lenN (bits v) = lenN (bits m) ->
     exists x, masked_new v m op = Some x /\
       let shown := zip_with f (bits v) (bits m) in
       (forall p, masked_get x p = Ok (option_map bitN (getN shown p))) /\
       (forall p, masked_is_bit_set x p = Ok (getN shown p)) /\
       masked_count_ones x = Ok (count true shown) /\
       masked_count_zeros x = Ok (count false shown) /\
       wf (masked_to_bit_vec x) /\ bits (masked_to_bit_vec x) = shown).
Proof.
  intros Hop Hv Hm. rewrite !lenN_bits. unfold masked_new. split; intros E.
  - destruct (N.eqb_spec (blen v) (blen m)); [congruence|reflexivity].
  - rewrite E, N.eqb_refl. cbn [negb]. eexists. split; [reflexivity|].
    assert (Hx : masked_wf (mkmasked v m op) f) by (repeat split; auto; try apply Hop; try apply Hv; try apply Hm; auto).
    pose proof (masked_to_bit_vec_ok _ _ Hx) as [Hw Hb]. unfold masked_bits_spec in Hb. cbn [mvec mmask] in Hb.
    rewrite <- Hb. repeat split; auto; try apply Hw; intros.
    + rewrite (masked_get_to _ f) by auto. now apply bv_get_spec.
    + rewrite (masked_is_bit_set_to _ f) by auto. now apply bv_is_bit_set_spec.
    + rewrite (masked_count_ones_to _ f) by auto. now apply bv_count_ones_ok.
    + rewrite (masked_count_zeros_to _ f) by auto. now apply bv_count_zeros_ok.
Qed.
(** The three built-in masks are instances, and so is a custom operation such as and-not. *)
Example C09_ex :
  bitwise N.lor orb /\ bitwise N.land andb /\ bitwise N.lxor xorb /\
  bitwise (fun a b => N.land a (not64 b)) (fun a b => a && negb b).
Proof.
  split; [apply bitwise_or|]. split; [apply bitwise_and|]. split; [apply bitwise_xor|].
  intros a b Ha Hb. split; [auto with words|]. intros i Hi. rewrite N.land_spec, not64_spec.
  destruct (N.ltb_spec i 64); [|lia]. now rewrite xorb_true_r.
Qed.

(** ** C10 *)
(** Missing: width 64 at positions that are not a multiple of 64, for which it is false
    ([C10_masked_get_bits_refuted]). *)
Theorem C10_masked_get_bits_partial op f v m x p n :
  bitwise op f -> wf v -> wf m -> masked_new v m op = Some x ->
  n <> 64 \/ p mod 64 = 0 ->
  masked_get_bits x p n = bv_get_bits (masked_to_bit_vec x) p n.
Proof.
  intros Hop Hv Hm. unfold masked_new. destruct (N.eqb_spec (blen v) (blen m)); [|discriminate].
  intros [= <-] Hn. apply masked_get_bits_to with (f := f); auto.
  repeat split; auto; try apply Hop; try apply Hv; try apply Hm; auto.
Qed.
Example C10_ex :
  exists x, masked_new ex_bv ex_bv N.land = Some x /\ masked_get_bits x 60 10 = Ok (Some 0x15F).
Proof. eexists. split; reflexivity. Qed.
Theorem C10_masked_get_bits_refuted :
  exists v m x p n, wf v /\ wf m /\ masked_new v m N.lor = Some x /\
    masked_get_bits x p n = Ok (Some 0) /\
    bv_get_bits (masked_to_bit_vec x) p n = Ok (Some (2 ^ 64 - 1)).
Proof.
  exists (bv_from_ones 128), (bv_from_ones 128). eexists. exists 1, 64.
  split; [apply bv_from_ones_ok|]. split; [apply bv_from_ones_ok|]. split; [reflexivity|].
  split; reflexivity.
Qed.

(** ** C11 *)
(** Missing: [append_bits(w, 0)] when the length is a multiple of 64, for which it is false
    ([C11_usable_refuted]). *)
Theorem C11_usable_partial bv w n b :
  wf bv -> w < 2 ^ 64 -> n <= 64 -> 1 <= n \/ lenN (bits bv) mod 64 <> 0 ->
  exists bv' bv'', bv_append_bits bv w n = Ok bv' /\ bv_append bv' b = Ok bv'' /\
                   bits bv'' = bits bv ++ lowbits w n ++ [b].
Proof.
  rewrite lenN_bits. intros H Hw Hn Hc.
  assert (G : exists bv', bv_append_bits bv w n = Ok bv' /\ wf bv' /\ bits bv' = bits bv ++ lowbits w n).
  { destruct (N.eq_dec n 0) as [->|].
    - destruct (bv_append_bits_unaligned0 bv w) as (bv' & E & H' & Hb); auto; try lia.
      exists bv'. rewrite Hb. change (lowbits w 0) with (@nil bool). now rewrite app_nil_r.
    - apply bv_append_bits_ok; auto; lia. }
  destruct G as (b1 & E1 & H1 & Hb1). destruct (bv_append_ok b1 b H1) as (b2 & E2 & H2 & Hb2).
  exists b1, b2. rewrite Hb2, Hb1, app_assoc. auto.
Qed.
Example C11_ex : wf ex_bv /\ lenN (bits ex_bv) mod 64 = 6.
Proof. split; [apply ex_bv_wf|reflexivity]. Qed.
(** Appending no bits to an empty vector and then the bit 1 yields a vector whose only bit is 0;
    extending it by an empty vector panics. *)
Theorem C11_usable_refuted :
  exists bv1 bv2, bv_append_bits bv_new 0 0 = Ok bv1 /\ bv_append_bits bv1 1 1 = Ok bv2 /\
     bv_length bv2 = 1 /\ bv_get bv2 0 = Ok (Some 0) /\
     bv_extend bv1 bv_new = Panic.
Proof. eexists. eexists. repeat split; reflexivity. Qed.
