(** * Properties C84-C87: exact reads of masked vectors, and different structures over the same data
    give the same answers. *)
From Verif Require Import Base Spec BaseFacts WordFacts BitVecModel BitVecProofs BitVecProofs2 PropsBitVec
  RsVecModel RsVecProofs RsVecSelect PropsRsVec IterSpec EFModel EFProofs SparseModel PropsEF PropsSparse
  RmqModel PropsRmq WaveletModel WaveletProofs PropsIter PropsWavelet GenIterModel ReleaseModel PropsRelease.

(** ** C84: [MaskedBitVec::get_bits] for all arguments. *)
Theorem C84_masked_get_bits op f v m x p n :
  bitwise op f -> wf v -> wf m -> masked_new v m op = Some x ->
  masked_get_bits x p n =
    (if (n =? 64) && negb (p mod 64 =? 0) && (p + n <? 2 ^ 64) && (p + n <=? lenN (bits v)) then Ok (Some 0)
     else bv_get_bits (masked_to_bit_vec x) p n).
Proof.
  intros Hop Hv Hm E. rewrite lenN_bits. destruct (N.eqb_spec n 64) as [->|Hn]; cbn [andb].
  2:{ apply (C10_masked_get_bits_partial op f v m); auto. }
  destruct (N.eqb_spec (p mod 64) 0) as [Hp|Hp]; cbn [negb andb].
  { apply (C10_masked_get_bits_partial op f v m); auto. }
  unfold masked_new in E. destruct (N.eqb_spec (blen v) (blen m)) as [El|]; [|discriminate]. injection E as <-.
  unfold masked_get_bits, bv_get_bits. cbn [masked_to_bit_vec blen mvec N.ltb N.compare Pos.compare Pos.compare_cont N.eqb orb].
  unfold add64. change U64 with (2 ^ 64). destruct (N.ltb_spec (p + 64) (2 ^ 64)); cbn [andb bind]; [|reflexivity].
  destruct (N.ltb_spec (blen v) (p + 64)) as [Hl|Hl], (N.leb_spec (p + 64) (blen v)) as [Hl'|Hl']; try lia; [reflexivity|].
  destruct Hv as [Hv _], Hm as [Hm _]. rewrite <- El in Hm.
  unfold masked_get_bits_unchecked. cbn [mvec mmask mop]. rewrite assert_true by lia. cbn [bind].
  rewrite !(idx_ok 0 _ (p / 64)) by (rewrite ?Hv, ?Hm; dlia). cbn [bind].
  destruct (N.eqb_spec (p mod 64 + 64) 64), (N.ltb_spec (p mod 64 + 64) 64); try lia.
  rewrite !(idx_ok 0 _ (p / 64 + 1)) by (rewrite ?Hv, ?Hm; dlia). cbn [bind].
  unfold shl64_chk. destruct (N.ltb_spec (64 - p mod 64) 64); [|lia]. cbn [bind].
  change (lowmask (64 mod 64)) with 0. now rewrite N.land_0_r.
Qed.
(** The first limb of ones of [C10_masked_get_bits_refuted], and reads next to it. *)
Example C84_ex : wf (bv_from_ones 128) /\
  exists x, masked_new (bv_from_ones 128) (bv_from_ones 128) N.land = Some x /\ bitwise N.land andb /\
    masked_get_bits x 1 64 = Ok (Some 0) /\ masked_get_bits x 64 64 = Ok (Some (2 ^ 64 - 1)) /\
    masked_get_bits x 1 63 = Ok (Some (2 ^ 63 - 1)) /\ masked_get_bits x 65 64 = Ok None.
Proof.
  split; [apply bv_from_ones_ok|]. eexists. split; [reflexivity|]. split; [apply bitwise_and|]. vm_compute. auto.
Qed.

Lemma takeN_map {A B} (f : A -> B) n l : takeN n (map f l) = map f (takeN n l).
Proof. unfold takeN. apply firstn_map. Qed.
Lemma increasing_filter f l : increasing l -> increasing (filter f l).
Proof.
  induction l as [|a l IH]; intros H; cbn [filter]; auto. apply increasing_cons in H as [H Ha].
  destruct (f a); auto. apply increasing_cons. split; auto. intros y Hy. apply filter_In in Hy as [Hy _]. auto.
Qed.
Lemma increasing_range a b : increasing (range a b).
Proof.
  intros i j x y Hij Hi Hj. apply getN_Some_inv in Hi as [Li Hi]. apply getN_Some_inv in Hj as [Lj Hj].
  rewrite lenN_range in *. specialize (Hi 0). specialize (Hj 0). rewrite nthN_range in Hi, Hj by auto. lia.
Qed.

(** ** C85: the sparse vector of the ones (of the zeros) answers like the dense vector (with the roles
    of the bits exchanged), for every position and rank. *)
Theorem C85_sparse bv w rs :
  wf bv -> lenN (bits bv) < 2 ^ 64 -> w < 64 -> rs_from_bit_vec bv = Ok rs ->
  exists s t, sp_from_bitvec w bv = Ok s /\ sp_from_bitvec_inverted w bv = Ok t /\
    sp_len s = rlen rs /\ sp_len t = rlen rs /\
    forall i, i < 2 ^ 64 ->
      (sp_get s i = rs_get rs i /\ sp_rank1 s i = rs_rank1 rs i /\ sp_rank0 s i = rs_rank0 rs i /\
       sp_select1 s i = rs_select1 rs i) /\
      (sp_rank1 t i = rs_rank0 rs i /\ sp_rank0 t i = rs_rank1 rs i /\ sp_select1 t i = rs_select0 rs i).
Proof.
  intros H Hl Hw E. destruct (C27_from_bitvec bv w H Hl Hw) as ((E1 & B1) & (E2 & B2) & _).
  assert (P : forall b, Forall (fun x => x < lenN (bits bv)) (positions b (bits bv))).
  { intros b. apply Forall_forall. intros x Hx. apply In_positions in Hx. now apply getN_Some_inv in Hx as [Hx _]. }
  destruct (C27_construction (positions true (bits bv)) (lenN (bits bv)) w) as (s & Es & Ls); auto using positions_increasing.
  destruct (C27_construction (positions false (bits bv)) (lenN (bits bv)) w) as (t & Et & Lt); auto using positions_increasing.
  exists s, t. rewrite E1, E2. destruct (C12_construction bv H) as (rs' & E' & Lr). rewrite E in E'. injection E' as <-.
  do 2 (split; [auto|]). do 2 (split; [congruence|]). intros i Hi.
  destruct (C12_rank bv rs i H E) as (R1 & R0 & _), (C13_select bv rs i H E) as [S1 S0], (C15_get bv rs i H E) as [G _].
  rewrite R1, R0, S1, S0, G.
  destruct (C27_get _ _ w s (positions_increasing _ _) (P true) Hl Hw Es i Hi) as [_ ->].
  destruct (C27_rank _ _ w s (positions_increasing _ _) (P true) Hl Hw Es i Hi) as [-> ->].
  rewrite (C27_select _ _ w s (positions_increasing _ _) (P true) Hl Hw Es i).
  destruct (C27_rank _ _ w t (positions_increasing _ _) (P false) Hl Hw Et i Hi) as [-> ->].
  rewrite (C27_select _ _ w t (positions_increasing _ _) (P false) Hl Hw Et i). rewrite B1, B2.
  split; [auto|].
  assert (N1 : forall b l p, rank_spec b (map negb l) p = rank_spec (negb b) l p).
  { intros b l p. unfold rank_spec. rewrite takeN_map. generalize (takeN p l). clear. intros l. induction l as [|x l IH]; [reflexivity|].
    cbn [map count]. rewrite IH. now destruct x, b. }
  assert (N2 : forall l k, positions_from true k (map negb l) = positions_from false k l).
  { clear. induction l as [|x l IH]; intros k; [reflexivity|]. cbn [map positions_from]. rewrite IH. now destruct x. }
  rewrite !N1. unfold select_spec, positions. rewrite N2, lenN_map. auto.
Qed.

(** ** C86: the wavelet matrix of the single bits. *)
Theorem C86_wavelet bv rs :
  wf bv -> rs_from_bit_vec bv = Ok rs ->
  exists w, wm_from_bit_vec bv 1 = Ok w /\ wm_len w = rlen rs /\
    (forall i, wm_get_u64 w i = rs_get rs i) /\
    (forall i, i <= rlen rs -> exists r0 r1, rs_rank0 rs i = Ok r0 /\ rs_rank1 rs i = Ok r1 /\
       wm_rank_u64 w i 0 = Ok (Some r0) /\ wm_rank_u64 w i 1 = Ok (Some r1)) /\
    (forall k, rlen rs + k < 2 ^ 64 -> exists p0 p1, rs_select0 rs k = Ok p0 /\ rs_select1 rs k = Ok p1 /\
       wm_select_u64 w k 0 = Ok (if p0 <? rlen rs then Some p0 else None) /\
       wm_select_u64 w k 1 = Ok (if p1 <? rlen rs then Some p1 else None)).
Proof.
  intros H E. destruct (C32_from_bit_vec bv 1 H) as (w & Ew & Hb & Hl & _); [lia|apply N.mod_1_r|].
  exists w. split; [auto|]. rewrite N.div_1_r in Hl, Hb.
  destruct (C12_construction bv H) as (rs' & E' & Lr). rewrite E in E'. injection E' as <-. rewrite Lr.
  assert (Em : map (fun i => value (sliceN (i * 1) 1 (bits bv))) (range 0 (lenN (bits bv))) = map bitN (bits bv)).
  { apply list_ext with (d := 0); rewrite !lenN_map, lenN_range; [lia|]. intros i Hi. rewrite N.sub_0_r in Hi.
    rewrite (nthN_map _ 0), (nthN_map _ false), nthN_range by (rewrite ?lenN_range; lia). rewrite N.add_0_l, N.mul_1_r.
    replace (sliceN i 1 (bits bv)) with [nthN false (bits bv) i]; [destruct (nthN false (bits bv) i); reflexivity|].
    symmetry. apply list_ext with (d := false); rewrite lenN_sliceN by lia; [reflexivity|]. intros j Hj.
    rewrite nthN_sliceN by lia. replace j with 0 by lia. now rewrite N.add_0_r. }
  rewrite Em in Hb. split; [auto|].
  assert (Ho : forall b l, occurrences (bitN b) (map bitN l) = count b l).
  { unfold occurrences. clear. intros b l. induction l as [|x l IH]; [reflexivity|]. cbn [map filter count].
    replace (bitN b =? bitN x) with (Bool.eqb x b) by (now destruct x, b). destruct (Bool.eqb x b); rewrite ?lenN_cons, IH; lia. }
  assert (Hp : forall b, occurrence_positions (bitN b) 0 (map bitN (bits bv)) = positions b (bits bv)).
  { intros b. unfold occurrence_positions. apply increasing_ext; auto using increasing_filter, increasing_range, positions_increasing.
    intros x. rewrite filter_In, In_range, In_positions, lenN_map. split.
    - intros [H1 H2]. apply andb_prop in H2 as [_ H2]. apply N.eqb_eq in H2. rewrite (nthN_map _ false) in H2 by lia.
      rewrite (getN_ok false) by lia. f_equal. now destruct (nthN false (bits bv) x), b.
    - intros Hx. apply getN_Some_inv in Hx as [Hx Hn]. rewrite (nthN_map _ false) by auto. rewrite Hn, N.eqb_refl. split; [lia|].
      rewrite andb_true_r. apply N.leb_le. lia. }
  assert (Hs : forall b k, lenN (bits bv) + k < 2 ^ 64 -> wm_select_u64 w k (bitN b) =
      Ok (if select_spec b (bits bv) k <? lenN (bits bv) then Some (select_spec b (bits bv) k) else None)).
  { intros b k Hk. rewrite (C35_select_u64_partial _ _ _ Hb) by (rewrite ?lenN_map; auto; destruct b; cbn; lia). cbn [N.leb N.compare Pos.compare Pos.compare_cont].
    rewrite Hp. unfold select_spec. destruct (getN (positions b (bits bv)) k) as [p|] eqn:Eg.
    - assert (Hi : In p (positions b (bits bv))) by (apply getN_In in Eg; auto). apply In_positions, getN_Some_inv in Hi as [Hi _]. destruct (N.ltb_spec p (lenN (bits bv))); [reflexivity|lia].
    - now rewrite N.ltb_irrefl. }
  split; [|split].
  - intros i. destruct (C32_get w _ 1 i Hb) as (_ & -> & _). destruct (C15_get bv rs i H E) as [-> _]. rewrite getN_map. reflexivity.
  - intros i Hi. destruct (C12_rank bv rs i H E) as (R1 & R0 & _). do 2 eexists. split; [exact R0|]. split; [exact R1|].
    rewrite !(C34_rank_u64 _ _ _ Hb) by (cbn; lia). rewrite lenN_map, takeN_map.
    destruct (N.leb_spec i (lenN (bits bv))); [|lia]. cbn [andb N.leb N.compare Pos.compare Pos.compare_cont].
    split; do 2 f_equal; [apply (Ho false)|apply (Ho true)].
  - intros k Hk. destruct (C13_select bv rs k H E) as [S1 S0]. do 2 eexists. split; [exact S0|]. split; [exact S1|].
    split; [apply (Hs false)|apply (Hs true)]; auto.
Qed.
Definition ex_mix : bitvec := mkbv [0x2D] 7.
Lemma ex_mix_wf : wf ex_mix.
Proof. split; [reflexivity|]. repeat constructor. Qed.
Definition ex_mix_rs : rsvec := match rs_from_bit_vec ex_mix with Ok r => r | _ => mkrs [] 0 [] [] [] 0 0 end.
(** The bits 1, 0, 1, 1, 0, 1, 0. *)
Example C85_ex : wf ex_mix /\ rs_from_bit_vec ex_mix = Ok ex_mix_rs /\
  match sp_from_bitvec 1 ex_mix, sp_from_bitvec_inverted 1 ex_mix with
  | Ok s, Ok t => sp_rank1 s 4 = Ok 3 /\ rs_rank1 ex_mix_rs 4 = Ok 3 /\ sp_select1 t 2 = Ok 6 /\ rs_select0 ex_mix_rs 2 = Ok 6 /\
      sp_select1 s 9 = Ok 7 /\ rs_select1 ex_mix_rs 9 = Ok 7
  | _, _ => False
  end.
Proof. split; [apply ex_mix_wf|]. vm_compute. auto 10. Qed.
Example C86_ex : wf ex_mix /\ rs_from_bit_vec ex_mix = Ok ex_mix_rs /\
  match wm_from_bit_vec ex_mix 1 with
  | Ok w => wm_rank_u64 w 7 1 = Ok (Some 4) /\ wm_select_u64 w 3 1 = Ok (Some 5) /\ wm_select_u64 w 4 1 = Ok None /\
      rs_select1 ex_mix_rs 3 = Ok 5 /\ rs_select1 ex_mix_rs 4 = Ok 7
  | _ => False
  end.
Proof. split; [apply ex_mix_wf|]. vm_compute. auto 10. Qed.

(** ** C87: both range minimum structures find the same value (not always the same index, C83). *)
Theorem C87_rmq data i j b r :
  br_from_vec data = Ok b -> fr_from_vec data = Ok r -> i <= j -> j < lenN data ->
  exists p q v, br_range_min b i j = Ok p /\ fr_range_min r i j = Ok q /\
    getN data p = Some v /\ getN data q = Some v.
Proof.
  intros Eb Er Hij Hj.
  assert (Hl : lenN data < 2 ^ 32).
  { destruct (N.le_gt_cases (2 ^ 32) (lenN data)) as [Hl|]; [|auto]. destruct (C28_construction data) as [_ C]. rewrite C in Eb by auto. discriminate. }
  destruct (C28_range_min data i j Hl Hij Hj) as (b' & p & Eb' & Ep & P1 & P2 & P3). rewrite Eb in Eb'. injection Eb' as <-.
  destruct (C29_range_min data r i j Er Hij Hj) as (q & Eq & Q1 & Q2 & Q3).
  exists p, q, (nthN 0 data p). split; [auto|]. split; [auto|]. split; [apply getN_ok; lia|].
  rewrite (getN_ok 0) by lia. f_equal.
  pose proof (P3 q _ _ Q1 Q2 (getN_ok 0 data p ltac:(lia)) (getN_ok 0 data q ltac:(lia))).
  pose proof (Q3 p _ _ P1 P2 (getN_ok 0 data q ltac:(lia)) (getN_ok 0 data p ltac:(lia))). lia.
Qed.
Example C87_ex : match br_from_vec [7; 4; 4; 9], fr_from_vec [7; 4; 4; 9] with
  | Ok b, Ok r => br_range_min b 0 3 = Ok 1 /\ fr_range_min r 0 3 = Ok 1 /\ br_range_min b 1 3 = Ok 2 /\ fr_range_min r 1 3 = Ok 1
  | _, _ => False end.
Proof. vm_compute. auto. Qed.

(** ** C88: in a release build [get_bits] answers like the debug build if [pos + len] does not
    overflow. Otherwise it still never returns bits: it panics unless the wrapped end is too large. *)
Theorem C88_get_bits_release bv p n :
  wf bv -> lenN (bits bv) <= 2 ^ 64 - 128 -> p < 2 ^ 64 -> n < 2 ^ 64 ->
  bv_get_bits_rel bv p n =
    (if p + n <? 2 ^ 64 then bv_get_bits bv p n
     else if (1 <=? n) && (n <=? 64) && (p + n - 2 ^ 64 <=? lenN (bits bv)) then Panic else Ok None).
Proof.
  rewrite lenN_bits. intros [Hl Hw] Hb Hp Hn. unfold bv_get_bits_rel, bv_get_bits, add64. change U64 with (2 ^ 64).
  destruct (N.ltb_spec 64 n), (N.leb_spec n 64); try lia; [cbn [orb andb]; rewrite andb_false_r; now destruct (p + n <? 2 ^ 64)|].
  destruct (N.eqb_spec n 0), (N.leb_spec 1 n); try lia; [cbn [orb andb]; now destruct (p + n <? 2 ^ 64)|]. cbn [orb andb].
  destruct (N.ltb_spec (p + n) (2 ^ 64)).
  - rewrite wadd_lt by auto. reflexivity.
  - rewrite wadd_ge by auto. destruct (N.ltb_spec (blen bv) (p + n - 2 ^ 64)), (N.leb_spec (p + n - 2 ^ 64) (blen bv)); try lia; [reflexivity|].
    unfold bv_get_bits_unchecked, limbs_get_bits_unchecked. rewrite assert_true by lia. cbn [bind]. rewrite idx_panic; [reflexivity|].
    rewrite Hl. apply N.div_le_mono; lia.
Qed.
Example C88_ex : wf ex_mix /\ bv_get_bits_rel ex_mix (2 ^ 64 - 2) 5 = Panic /\ bv_get_bits_rel ex_mix (2 ^ 64 - 2) 64 = Ok None /\
  bv_get_bits_rel ex_mix (2 ^ 64 - 3) 2 = Ok None /\ bv_get_bits_rel ex_mix 1 4 = Ok (Some 6).
Proof. split; [apply ex_mix_wf|]. vm_compute. auto. Qed.

(** ** C89: the unchecked accessors of bit vectors. Inside the vector they read and write the bits;
    in the storage behind it, up to the next multiple of 64, writes have no effect; elsewhere they
    panic. *)
Lemma stale_write bv p f :
  wf bv -> blen bv <= p -> p < (blen bv + 63) / 64 * 64 ->
  (forall w, w < 2 ^ 64 -> f w < 2 ^ 64 /\ forall j, j < 64 -> j <> p mod 64 -> N.testbit (f w) j = N.testbit w j) ->
  exists bv', (let* d := upd_limb (bdata bv) (p / 64) f in Ok (mkbv d (blen bv))) = Ok bv' /\ wf bv' /\ bits bv' = bits bv.
Proof.
  intros [Hl Hw] H1 H2 Hf. assert (Hq : p / 64 < lenN (bdata bv)) by (rewrite Hl; apply N.div_lt_upper_bound; lia).
  rewrite upd_limb_ok by auto. cbn [bind]. eexists. split; [reflexivity|].
  set (v := nthN 0 (bdata bv) (p / 64)). assert (Hv : v < 2 ^ 64) by (unfold v; change (2 ^ 64) with U64; auto with words).
  destruct (Hf v Hv) as [F1 F2]. split.
  - split; cbn [bdata blen]; [rewrite lenN_set_nth; auto|]. auto with words.
  - apply list_ext with (d := false); rewrite !lenN_bits; cbn [blen]; [auto|]. intros i Hi. rewrite !nthN_bits by auto. cbn [bdata].
    rewrite bit_at_set by auto. destruct (N.eqb_spec (i / 64) (p / 64)) as [E|E]; [|reflexivity]. unfold bit_at. rewrite F2.
    + unfold v. now rewrite E.
    + apply N.mod_lt. lia.
    + intros E'. assert (i = p) by (rewrite (N.div_mod i 64), (N.div_mod p 64) by lia; congruence). lia.
Qed.
Theorem C89_unchecked bv p v :
  wf bv ->
  (p < lenN (bits bv) ->
     bv_get_unchecked bv p = Ok (bitN (nthN false (bits bv) p)) /\
     bv_is_bit_set_unchecked bv p = Ok (nthN false (bits bv) p) /\
     (exists bv', bv_set_unchecked bv p v = Ok bv' /\ wf bv' /\ bits bv' = takeN p (bits bv) ++ N.odd v :: dropN (p + 1) (bits bv)) /\
     (exists bv', bv_flip_bit_unchecked bv p = Ok bv' /\ wf bv' /\
        bits bv' = takeN p (bits bv) ++ negb (nthN false (bits bv) p) :: dropN (p + 1) (bits bv))) /\
  (lenN (bits bv) <= p -> p < (lenN (bits bv) + 63) / 64 * 64 ->
     (exists b, bv_get_unchecked bv p = Ok (bitN b) /\ bv_is_bit_set_unchecked bv p = Ok b) /\
     (exists bv', bv_set_unchecked bv p v = Ok bv' /\ wf bv' /\ bits bv' = bits bv) /\
     (exists bv', bv_flip_bit_unchecked bv p = Ok bv' /\ wf bv' /\ bits bv' = bits bv)) /\
  ((lenN (bits bv) + 63) / 64 * 64 <= p ->
     bv_get_unchecked bv p = Panic /\ bv_is_bit_set_unchecked bv p = Panic /\
     bv_set_unchecked bv p v = Panic /\ bv_flip_bit_unchecked bv p = Panic).
Proof.
  intros H. rewrite lenN_bits. assert (Hl : lenN (bdata bv) = (blen bv + 63) / 64) by apply H. split; [|split].
  - intros Hp. assert (Hs : forall b, set_nth (bits bv) (N.to_nat p) b = takeN p (bits bv) ++ b :: dropN (p + 1) (bits bv)).
    { intros b. assert (Hp' : p < lenN (bits bv)) by (rewrite lenN_bits; auto). revert Hp'. generalize (bits bv). clear. intros l Hp.
      apply list_ext with (d := false); [rewrite lenN_set_nth, lenN_app, lenN_cons, lenN_takeN, lenN_dropN; lia|].
      intros i Hi. rewrite lenN_set_nth in Hi. rewrite nthN_set_nth, nthN_app, lenN_takeN, nthN_cons, nthN_dropN by auto. replace (N.min p (lenN l)) with p by lia.
      destruct (N.ltb_spec i p), (N.eqb_spec i p), (N.eqb_spec (i - p) 0); try lia; [now rewrite nthN_takeN|]. f_equal. lia. }
    unfold bv_is_bit_set_unchecked. rewrite bv_get_unchecked_ok, nthN_bits by auto. cbn [bind]. split; [auto|]. split; [now destruct (bit_at (bdata bv) p)|]. split.
    + destruct (bv_set_ok bv p v H Hp) as (bv' & E & W & B). unfold bv_set in E. destruct (N.leb_spec (blen bv) p); [lia|].
      destruct (bv_set_unchecked bv p v) as [x| |]; cbn [bind] in E; try discriminate. injection E as <-. exists x. rewrite B, Hs, N.bit0_odd. auto.
    + destruct (bv_flip_ok bv p H Hp) as (bv' & E & W & B). unfold bv_flip_bit in E. rewrite assert_true in E by lia. cbn [bind] in E.
      exists bv'. rewrite B, Hs, nthN_bits by auto. auto.
  - intros H1 H2. split; [|split].
    + unfold bv_is_bit_set_unchecked, bv_get_unchecked. rewrite (idx_ok 0) by (rewrite Hl; apply N.div_lt_upper_bound; lia). cbn [bind].
      rewrite shiftr_land_1. eexists. split; [reflexivity|]. now destruct (N.testbit _ _).
    + apply stale_write; auto. intros w Hw. split; [change (2 ^ 64) with U64 in *; auto with words|]. intros j Hj Hn.
      rewrite N.lor_spec, N.land_spec, not64_spec, shl64_1_spec by (apply N.mod_lt; lia). rewrite land_1, shl64_spec.
      destruct (N.ltb_spec j 64), (N.eqb_spec j (p mod 64)); try lia; cbn [negb xorb andb]. rewrite andb_true_r.
      destruct (N.leb_spec (p mod 64) j); cbn [andb]; [|apply orb_false_r].
      destruct (N.testbit v 0); cbn [bitN]; rewrite ?N.bits_0, ?testbit_1; [|apply orb_false_r].
      destruct (N.eqb_spec (j - p mod 64) 0); [lia|apply orb_false_r].
    + apply stale_write; auto. intros w Hw. split; [change (2 ^ 64) with U64 in *; auto with words|]. intros j Hj Hn.
      rewrite N.lxor_spec, shl64_1_spec by (apply N.mod_lt; lia). destruct (N.eqb_spec j (p mod 64)); [lia|apply xorb_false_r].
  - intros Hp. unfold bv_is_bit_set_unchecked, bv_get_unchecked, bv_set_unchecked, bv_flip_bit_unchecked, upd_limb.
    rewrite idx_panic by (rewrite Hl; apply N.div_le_lower_bound; lia). auto.
Qed.
Theorem C89_get_bits_unchecked bv p n :
  wf bv -> 1 <= n -> n <= 64 -> p + n <= lenN (bits bv) ->
  bv_get_bits_unchecked bv p n = Ok (value (sliceN p n (bits bv))) /\
  (forall i, i * n = p -> p < 2 ^ 64 -> bv_unpack_element_unchecked bv i n = Ok (value (sliceN p n (bits bv)))).
Proof.
  rewrite lenN_bits. intros H H1 H2 H3. split; [now apply bv_get_bits_unchecked_ok|]. intros i <- Hi.
  unfold bv_unpack_element_unchecked, mul64. change U64 with (2 ^ 64). destruct (N.ltb_spec (i * n) (2 ^ 64)); [|lia]. cbn [bind].
  now apply bv_get_bits_unchecked_ok.
Qed.
Theorem C89_is_empty bv : wf bv -> (bv_is_empty bv = true <-> bits bv = []).
Proof.
  intros _. unfold bv_is_empty. rewrite N.eqb_eq, <- lenN_bits. destruct (bits bv); [now split|]. rewrite lenN_cons. split; [lia|discriminate].
Qed.
(** [ex_bv] has 70 bits in two limbs. *)
Example C89_ex : wf ex_bv /\ bv_get_unchecked ex_bv 69 = Ok 0 /\ bv_get_unchecked ex_bv 70 = Ok 1 /\ bv_get_unchecked ex_bv 128 = Panic /\
  bv_set_unchecked ex_bv 70 0 = Ok (mkbv [0xF0F0F0F0F0F0F0F0; 0xFFFFFFFFFFFFFF95] 70) /\
  bv_flip_bit_unchecked ex_bv 69 = Ok (mkbv [0xF0F0F0F0F0F0F0F0; 0xFFFFFFFFFFFFFFF5] 70) /\
  bv_unpack_element_unchecked ex_bv 6 10 = Ok 0x15F /\ bv_is_empty ex_bv = false.
Proof. split; [apply ex_bv_wf|]. vm_compute. auto 10. Qed.
