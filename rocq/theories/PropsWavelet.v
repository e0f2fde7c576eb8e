(** * Properties C32-C40, C58-C60: the wavelet matrix.

    [wm_built w l k] lists the ways to obtain a matrix [w] for the sequence [l] of [k]-bit numbers.
    [bv_of k x] is the bit vector of length [k] with the binary digits of [x], least significant
    first ([bv_of_bits]). *)
From Coq Require Import Permutation Sorting.Sorted.
From Verif Require Import Base Spec BaseFacts WordFacts BitVecModel BitVecProofs BitVecProofs2 RsVecModel RsVecProofs RsEqProofs
  IterSpec IterFacts GenIterModel GenIterProofs PropsIter
  WaveletModel WaveletProofs WaveletOrder WaveletBuild WaveletCount WaveletQuery WaveletAnswer.

Theorem bv_of_bits k x : x < 2 ^ k -> wf (bv_of k x) /\ zero_tail (bv_of k x) /\ bits (bv_of k x) = lowbits x k.
Proof. apply bv_of_good. Qed.
Theorem value_of_lowbits k x : x < 2 ^ k -> value (lowbits x k) = x.
Proof. intros Hx. rewrite value_low. now apply N.mod_small. Qed.

(** ** The constructors. *)
Inductive wm_built : wavelet -> list N -> N -> Prop :=
| built_slice sequence k w : 1 <= k -> wm_from_slice sequence k = Ok w ->
    wm_built w (map (fun x => x mod 2 ^ k) sequence) k
| built_bit_vec bv k w : wf bv -> wm_from_bit_vec bv k = Ok w ->
    wm_built w (map (fun i => value (sliceN (i * k) k (bits bv))) (range 0 (lenN (bits bv) / k))) k
| built_slice_pc sequence k w : 1 <= k -> k <= 63 -> Forall (fun x => x < 2 ^ k) sequence ->
    wm_from_slice_pc sequence k = Ok w -> wm_built w sequence k
| built_bit_vec_pc bv k w : wf bv -> k <= 63 -> wm_from_bit_vec_pc bv k = Ok w ->
    wm_built w (map (fun i => value (sliceN (i * k) k (bits bv))) (range 0 (lenN (bits bv) / k))) k.

Lemma from_bit_vec_pre bv k w : wm_from_bit_vec bv k = Ok w -> 1 <= k /\ blen bv mod k = 0.
Proof.
  unfold wm_from_bit_vec. destruct (N.eqb_spec k 0); cbn [negb assert bind]; [discriminate|]. destruct (N.eqb_spec (blen bv mod k) 0); cbn [assert bind]; [|discriminate]. intros _. lia.
Qed.
Lemma from_bit_vec_pc_pre bv k w : wm_from_bit_vec_pc bv k = Ok w -> 1 <= k /\ blen bv mod k = 0.
Proof.
  unfold wm_from_bit_vec_pc. destruct (N.eqb_spec k 0); cbn [negb assert bind]; [discriminate|]. destruct (N.eqb_spec (blen bv mod k) 0); cbn [assert bind]; [|discriminate]. intros _. lia.
Qed.
Lemma wm_built_ok w l k : wm_built w l k -> wmok w l k.
Proof.
  intros [seq k' w' H1 E|bv k' w' H E|seq k' w' H1 H2 Hs E|bv k' w' H H2 E]; clear w l k; rename k' into k, w' into w.
  - assert (H2 : k <= 64) by (unfold wm_from_slice in E; destruct (N.leb_spec k 64); [auto|discriminate]).
    destruct (from_slice_wmok seq k H1 H2) as (w' & E' & G). rewrite E in E'. injection E' as <-. exact G.
  - destruct (from_bit_vec_pre _ _ _ E) as [H1 Hm]. destruct (from_bit_vec_wmok bv k H H1 Hm) as (w' & E' & G). rewrite E in E'. injection E' as <-. exact G.
  - rewrite from_slice_pc_eq in E by auto. destruct (from_slice_wmok seq k) as (w' & E' & G); [auto|lia|]. rewrite E in E'. injection E' as <-. now rewrite trunc_id in G.
  - destruct (from_bit_vec_pc_pre _ _ _ E) as [H1 Hm]. rewrite from_bit_vec_pc_eq in E by auto.
    destruct (from_bit_vec_wmok bv k H H1 Hm) as (w' & E' & G). rewrite E in E'. injection E' as <-. exact G.
Qed.
Theorem wm_built_small w l k : wm_built w l k -> 1 <= k /\ wm_bits w = k /\ wm_len w = lenN l /\ Forall (fun x => x < 2 ^ k) l.
Proof. intros Hb. apply wm_built_ok in Hb. destruct Hb as [H1 H2 H3 H4] eqn:E. repeat split; auto. apply (wm_len_ok _ _ _ Hb). Qed.

(** ** C32: the elements. *)
Theorem C32_from_slice sequence k : 1 <= k -> k <= 64 ->
  exists w, wm_from_slice sequence k = Ok w /\ wm_built w (map (fun x => x mod 2 ^ k) sequence) k /\
    wm_len w = lenN sequence /\
    forall i, wm_get_u64 w i = Ok (option_map (fun x => x mod 2 ^ k) (getN sequence i)) /\
              wm_get_value w i = Ok (option_map (fun x => bv_of k (x mod 2 ^ k)) (getN sequence i)).
Proof.
  intros H1 H2. destruct (from_slice_wmok sequence k H1 H2) as (w & E & G). exists w. split; [auto|]. split; [now constructor|].
  rewrite (wm_len_ok _ _ _ G). split; [apply lenN_map|]. intros i. rewrite (get_u64_ok _ _ _ G), (get_value_ok _ _ _ G). unfold trunc. rewrite getN_map.
  destruct (N.leb_spec k 64); [|lia]. split; [reflexivity|]. now destruct (getN sequence i).
Qed.
Theorem C32_from_bit_vec bv k : wf bv -> 1 <= k -> lenN (bits bv) mod k = 0 ->
  exists w, wm_from_bit_vec bv k = Ok w /\
    wm_built w (map (fun i => value (sliceN (i * k) k (bits bv))) (range 0 (lenN (bits bv) / k))) k /\
    wm_len w = lenN (bits bv) / k /\
    (forall i, i < lenN (bits bv) / k ->
       exists v, wm_get_value w i = Ok (Some v) /\ wf v /\ bits v = sliceN (i * k) k (bits bv)) /\
    (forall i, i < lenN (bits bv) / k -> k <= 64 -> wm_get_u64 w i = Ok (Some (value (sliceN (i * k) k (bits bv))))) /\
    (forall i, lenN (bits bv) / k <= i -> wm_get_value w i = Ok None /\ wm_get_u64 w i = Ok None) /\
    (64 < k -> forall i, wm_get_u64 w i = Ok None).
Proof.
  intros H H1 Hm. rewrite lenN_bits in *. destruct (from_bit_vec_wmok bv k H H1 Hm) as (w & E & G). exists w. split; [auto|]. split; [rewrite <- lenN_bits; now constructor|].
  assert (Hl : lenN (chunks k (bits bv)) = blen bv / k) by (unfold chunks; rewrite lenN_map, lenN_range, lenN_bits; apply N.sub_0_r).
  assert (Hg : forall i, i < blen bv / k -> getN (chunks k (bits bv)) i = Some (value (sliceN (i * k) k (bits bv)))).
  { intros i Hi. rewrite (getN_ok 0) by (rewrite Hl; auto). unfold chunks. rewrite (nthN_map _ 0), nthN_range by (rewrite ?lenN_range, ?N.sub_0_r, lenN_bits; auto). reflexivity. }
  rewrite (wm_len_ok _ _ _ G), Hl. split; [auto|]. split; [|split; [|split]].
  - intros i Hi. rewrite (get_value_ok _ _ _ G), Hg by auto. cbn [option_map]. eexists. split; [reflexivity|].
    assert (Hls : lenN (sliceN (i * k) k (bits bv)) = k) by (apply lenN_sliceN, chunk_bound; rewrite ?lenN_bits; auto).
    destruct (bv_of_good k (value (sliceN (i * k) k (bits bv)))) as (W & _ & B); [pose proof (value_lt (sliceN (i * k) k (bits bv))) as Hv; rewrite Hls in Hv; exact Hv|]. split; [auto|]. rewrite B.
    apply list_ext with (d := false); [rewrite lenN_lowbits; auto|]. intros j Hj. rewrite lenN_lowbits in Hj. rewrite nthN_lowbits by auto. apply testbit_value.
  - intros i Hi Hk. rewrite (get_u64_ok _ _ _ G), Hg by auto. destruct (N.leb_spec k 64); [reflexivity|lia].
  - intros i Hi. rewrite (get_value_ok _ _ _ G), (get_u64_ok _ _ _ G), getN_ge by (rewrite Hl; auto). split; [reflexivity|]. now destruct (k <=? 64).
  - intros Hk i. rewrite (get_u64_ok _ _ _ G). destruct (N.leb_spec k 64); [lia|reflexivity].
Qed.
Theorem C32_get w l k i : wm_built w l k ->
  wm_get_value w i = Ok (option_map (bv_of k) (getN l i)) /\ wm_get_u64 w i = Ok (if k <=? 64 then getN l i else None) /\
  (forall x, getN l i = Some x -> wm_get_value_unchecked w i = Ok (bv_of k x) /\ (k <= 64 -> wm_get_u64_unchecked w i = Ok x)).
Proof.
  intros Hb. apply wm_built_ok in Hb. split; [now apply get_value_ok|]. split; [now apply get_u64_ok|]. intros x Hx. split; [now apply (get_value_unchecked_ok w l)|].
  intros. now apply (get_u64_unchecked_ok w l k).
Qed.
Definition ex_seq : list N := [3; 9; 0; 5; 5; 2; 7; 5].
Definition ex_wm : wavelet := match wm_from_slice ex_seq 3 with Ok w => w | _ => [] end.
Example C32_ex : wm_from_slice ex_seq 3 = Ok ex_wm /\ wm_get_u64 ex_wm 1 = Ok (Some 1) /\ wm_get_u64 ex_wm 6 = Ok (Some 7) /\
  wm_get_value ex_wm 3 = Ok (Some (mkbv [5] 3)) /\ wm_get_value ex_wm 8 = Ok None.
Proof. vm_compute. auto. Qed.
Example ex_wm_built : wm_built ex_wm (map (fun x => x mod 2 ^ 3) ex_seq) 3.
Proof. constructor; [lia|]. apply C32_ex. Qed.

(** ** C33: both constructions give the same matrix. *)
Theorem C33_slice sequence k : 1 <= k -> k <= 63 -> Forall (fun x => x < 2 ^ k) sequence ->
  exists w, wm_from_slice_pc sequence k = Ok w /\ wm_from_slice sequence k = Ok w.
Proof. intros H1 H2 Hs. rewrite from_slice_pc_eq by auto. destruct (from_slice_wmok sequence k) as (w & E & _); [auto|lia|]. eauto. Qed.
Theorem C33_bit_vec bv k : wf bv -> 1 <= k -> k <= 63 -> lenN (bits bv) mod k = 0 ->
  exists w, wm_from_bit_vec_pc bv k = Ok w /\ wm_from_bit_vec bv k = Ok w.
Proof. intros H H1 H2 Hm. rewrite lenN_bits in Hm. rewrite from_bit_vec_pc_eq by auto. destruct (from_bit_vec_wmok bv k) as (w & E & _); eauto. Qed.
Example C33_ex : wm_from_slice_pc [3; 1; 0; 5; 5; 2; 7; 5] 3 = Ok ex_wm.
Proof. vm_compute. reflexivity. Qed.

(** ** C34: rank. *)
Definition occurrences (s : N) (l : list N) : N := lenN (filter (N.eqb s) l).

Section Rank.
Variables (w : wavelet) (l : list N) (k : N).
Hypothesis Hb : wm_built w l k.

Lemma rank_u64_any a b s : a <= b -> b <= lenN l -> k <= 64 ->
  wm_rank_range_u64_unchecked w a b s = Ok (occurrences (s mod 2 ^ k) (sliceN a (b - a) l)).
Proof using Hb. intros H1 H2 H3. apply wm_built_ok in Hb. unfold wm_rank_range_u64_unchecked. apply (rank_any w l k Hb); auto. now apply (rd_u64_reads w l). Qed.
Lemma rank_bv_any a b s : a <= b -> b <= lenN l -> wf s -> lenN (bits s) = k ->
  wm_rank_range_unchecked w a b s = Ok (occurrences (value (bits s)) (sliceN a (b - a) l)).
Proof using Hb.
  intros H1 H2 H3 H4. apply wm_built_ok in Hb. unfold wm_rank_range_unchecked, occurrences. rewrite <- (value_mod k s H4).
  apply (rank_any w l k Hb); auto. apply (rd_bv_reads w l); auto. now rewrite <- lenN_bits.
Qed.
Lemma len_bits_eqs : wm_len w = lenN l /\ wm_bits w = k.
Proof using Hb. apply wm_built_ok in Hb. split; [apply (wm_len_ok _ _ _ Hb)|apply (wm_bits_ok _ _ _ Hb)]. Qed.

Theorem C58_rank_u64 a b s : a <= b -> s < 2 ^ 64 ->
  wm_rank_range_u64 w a b s =
    Ok (if (a <? lenN l) && (b <=? lenN l) && (k <=? 64) then Some (occurrences (s mod 2 ^ k) (sliceN a (b - a) l)) else None).
Proof using Hb.
  intros H1 _. destruct len_bits_eqs as [E1 E2]. unfold wm_rank_range_u64. rewrite E1, E2.
  destruct (N.leb_spec (lenN l) a), (N.ltb_spec a (lenN l)), (N.ltb_spec (lenN l) b), (N.leb_spec b (lenN l)), (N.ltb_spec 64 k), (N.leb_spec k 64); try lia; cbn [orb andb]; try reflexivity.
  rewrite rank_u64_any by auto. reflexivity.
Qed.
Theorem C34_rank_range_u64 a b s : a <= b -> s < 2 ^ k ->
  wm_rank_range_u64 w a b s = Ok (if (a <? lenN l) && (b <=? lenN l) && (k <=? 64) then Some (occurrences s (sliceN a (b - a) l)) else None).
Proof using Hb.
  intros H1 Hs. destruct (N.leb_spec k 64) as [Hk|Hk].
  - rewrite C58_rank_u64; auto; [|eapply N.lt_le_trans; [exact Hs|apply N.pow_le_mono_r; lia]]. destruct (N.leb_spec k 64); [|lia]. now rewrite (N.mod_small s).
  - rewrite andb_false_r. destruct len_bits_eqs as [E1 E2]. unfold wm_rank_range_u64. rewrite E2. destruct (N.ltb_spec 64 k); [|lia]. now rewrite orb_true_r.
Qed.
Theorem C34_rank_range a b s : a <= b -> wf s ->
  wm_rank_range w a b s =
    Ok (if (a <? lenN l) && (b <=? lenN l) && (lenN (bits s) =? k) then Some (occurrences (value (bits s)) (sliceN a (b - a) l)) else None).
Proof using Hb.
  intros H1 Hs. destruct len_bits_eqs as [E1 E2]. unfold wm_rank_range. rewrite E1, E2, lenN_bits.
  destruct (N.leb_spec (lenN l) a), (N.ltb_spec a (lenN l)), (N.ltb_spec (lenN l) b), (N.leb_spec b (lenN l)), (N.eqb_spec (blen s) k); try lia; cbn [negb orb andb]; try reflexivity.
  rewrite rank_bv_any by (auto; rewrite lenN_bits; auto). reflexivity.
Qed.
Theorem C34_rank_offset o i s : wf s ->
  wm_rank_offset w o i s =
    Ok (if (o <=? i) && (o <? lenN l) && (i <=? lenN l) && (lenN (bits s) =? k) then Some (occurrences (value (bits s)) (sliceN o (i - o) l)) else None).
Proof using Hb.
  intros Hs. destruct len_bits_eqs as [E1 E2]. unfold wm_rank_offset, wm_rank_offset_unchecked. rewrite E1, E2, lenN_bits.
  destruct (N.ltb_spec i o), (N.leb_spec o i), (N.leb_spec (lenN l) o), (N.ltb_spec o (lenN l)), (N.ltb_spec (lenN l) i), (N.leb_spec i (lenN l)), (N.eqb_spec (blen s) k); try lia; cbn [negb orb andb]; try reflexivity.
  rewrite rank_bv_any by (auto; rewrite lenN_bits; auto). reflexivity.
Qed.
Theorem C34_rank_offset_u64 o i s : s < 2 ^ k ->
  wm_rank_offset_u64 w o i s =
    Ok (if (o <=? i) && (o <? lenN l) && (i <=? lenN l) && (k <=? 64) then Some (occurrences s (sliceN o (i - o) l)) else None).
Proof using Hb.
  intros Hs. destruct len_bits_eqs as [E1 E2]. unfold wm_rank_offset_u64, wm_rank_offset_u64_unchecked. rewrite E1, E2.
  destruct (N.ltb_spec i o), (N.leb_spec o i), (N.leb_spec (lenN l) o), (N.ltb_spec o (lenN l)), (N.ltb_spec (lenN l) i), (N.leb_spec i (lenN l)), (N.ltb_spec 64 k), (N.leb_spec k 64); try lia; cbn [negb orb andb]; try reflexivity.
  rewrite rank_u64_any by auto. now rewrite (N.mod_small s).
Qed.
Theorem C34_rank i s : wf s ->
  wm_rank w i s = Ok (if (i <=? lenN l) && (lenN (bits s) =? k) then Some (occurrences (value (bits s)) (takeN i l)) else None).
Proof using Hb.
  intros Hs. destruct len_bits_eqs as [E1 E2]. unfold wm_rank. rewrite E1, E2, lenN_bits.
  destruct (N.ltb_spec (lenN l) i), (N.leb_spec i (lenN l)), (N.eqb_spec (blen s) k); try lia; cbn [negb orb andb]; try reflexivity.
  rewrite rank_bv_any by (auto; rewrite ?lenN_bits; auto; lia). rewrite N.sub_0_r. reflexivity.
Qed.
Theorem C34_rank_u64 i s : s < 2 ^ k ->
  wm_rank_u64 w i s = Ok (if (i <=? lenN l) && (k <=? 64) then Some (occurrences s (takeN i l)) else None).
Proof using Hb.
  intros Hs. destruct len_bits_eqs as [E1 E2]. unfold wm_rank_u64. rewrite E1, E2.
  destruct (N.ltb_spec (lenN l) i), (N.leb_spec i (lenN l)), (N.ltb_spec 64 k), (N.leb_spec k 64); try lia; cbn [negb orb andb]; try reflexivity.
  rewrite rank_u64_any by (auto; lia). now rewrite (N.mod_small s), N.sub_0_r.
Qed.
(** The unchecked versions on valid arguments. *)
Theorem C34_unchecked a b : a <= b -> b <= lenN l ->
  (forall s, wf s -> lenN (bits s) = k ->
    wm_rank_range_unchecked w a b s = Ok (occurrences (value (bits s)) (sliceN a (b - a) l)) /\
    wm_rank_offset_unchecked w a b s = Ok (occurrences (value (bits s)) (sliceN a (b - a) l)) /\
    wm_rank_unchecked w b s = Ok (occurrences (value (bits s)) (takeN b l))) /\
  (forall s, s < 2 ^ k -> k <= 64 ->
    wm_rank_range_u64_unchecked w a b s = Ok (occurrences s (sliceN a (b - a) l)) /\
    wm_rank_offset_u64_unchecked w a b s = Ok (occurrences s (sliceN a (b - a) l)) /\
    wm_rank_u64_unchecked w b s = Ok (occurrences s (takeN b l))).
Proof using Hb.
  intros H1 H2. split.
  - intros s Hs Hk. unfold wm_rank_offset_unchecked, wm_rank_unchecked. rewrite !rank_bv_any by (auto; lia). rewrite N.sub_0_r. auto.
  - intros s Hs Hk. unfold wm_rank_offset_u64_unchecked, wm_rank_u64_unchecked. rewrite !rank_u64_any by (auto; lia). rewrite N.sub_0_r, (N.mod_small s) by auto. auto.
Qed.
End Rank.
Example C34_ex : wm_rank_range_u64 ex_wm 1 5 5 = Ok (Some 2) /\ wm_rank_range ex_wm 1 8 (bv_of 3 5) = Ok (Some 3) /\
  wm_rank_u64 ex_wm 8 6 = Ok (Some 0) /\ wm_rank_offset ex_wm 4 8 (bv_of 3 7) = Ok (Some 1) /\ wm_rank_range_u64 ex_wm 8 8 5 = Ok None.
Proof. vm_compute. auto. Qed.

(** ** C35: select. The statement fails for ranks close to [2^64]: [range_start + rank] overflows. *)
Definition occurrence_positions (s o : N) (l : list N) : list N :=
  filter (fun p => (o <=? p) && (nthN 0 l p =? s)) (range 0 (lenN l)).

Section Select.
Variables (w : wavelet) (l : list N) (k : N).
Hypothesis Hb : wm_built w l k.

Theorem C59_select_offset_u64 o r s : s < 2 ^ 64 ->
  wm_select_offset_u64 w o r s = Ok (if (o <? lenN l) && (k <=? 64) then getN (occurrence_positions (s mod 2 ^ k) o l) r else None) \/
  wm_select_offset_u64 w o r s = Panic /\ 2 ^ 64 <= lenN l + r.
Proof using Hb.
  intros Hs. destruct (len_bits_eqs _ _ _ Hb) as [E1 E2]. unfold wm_select_offset_u64. rewrite E1, E2.
  destruct (N.leb_spec (lenN l) o), (N.ltb_spec o (lenN l)), (N.ltb_spec 64 k), (N.leb_spec k 64); try lia; cbn [orb andb]; auto.
  pose proof (wm_built_ok _ _ _ Hb) as G. unfold wm_select_offset_u64_unchecked.
  destruct (select_any w l k G (rd_u64 w s) s o r) as [(p & E & Hp)|[E Ho]]; [now apply (rd_u64_reads w l)|lia| |].
  - left. rewrite E. cbn [bind]. now rewrite Hp.
  - right. rewrite E. auto.
Qed.
Theorem C59_select_offset o r s : wf s ->
  wm_select_offset w o r s = Ok (if (o <? lenN l) && (lenN (bits s) =? k) then getN (occurrence_positions (value (bits s)) o l) r else None) \/
  wm_select_offset w o r s = Panic /\ 2 ^ 64 <= lenN l + r.
Proof using Hb.
  intros Hs. destruct (len_bits_eqs _ _ _ Hb) as [E1 E2]. unfold wm_select_offset. rewrite E1, E2, lenN_bits.
  destruct (N.leb_spec (lenN l) o), (N.ltb_spec o (lenN l)), (N.eqb_spec (blen s) k); try lia; cbn [negb orb andb]; auto.
  pose proof (wm_built_ok _ _ _ Hb) as G. unfold wm_select_offset_unchecked.
  destruct (select_any w l k G (rd_bv w s) (value (bits s)) o r) as [(p & E & Hp)|[E Ho]]; [now apply (rd_bv_reads w l)|lia| |].
  - left. rewrite E. cbn [bind]. rewrite Hp. rewrite value_mod by (rewrite lenN_bits; auto). reflexivity.
  - right. rewrite E. auto.
Qed.
Theorem C35_select_offset_u64_partial o r s : s < 2 ^ k -> lenN l + r < 2 ^ 64 ->
  wm_select_offset_u64 w o r s = Ok (if (o <? lenN l) && (k <=? 64) then getN (occurrence_positions s o l) r else None).
Proof using Hb.
  intros Hs Hr. destruct (N.leb_spec k 64) as [Hk|Hk].
  - destruct (C59_select_offset_u64 o r s) as [E|[_ E]]; [eapply N.lt_le_trans; [exact Hs|apply N.pow_le_mono_r; lia]| |lia].
    rewrite E. destruct (N.leb_spec k 64); [|lia]. now rewrite (N.mod_small s).
  - rewrite andb_false_r. destruct (len_bits_eqs _ _ _ Hb) as [E1 E2]. unfold wm_select_offset_u64. rewrite E2. destruct (N.ltb_spec 64 k); [|lia]. now rewrite orb_true_r.
Qed.
Theorem C35_select_offset_partial o r s : wf s -> lenN l + r < 2 ^ 64 ->
  wm_select_offset w o r s = Ok (if (o <? lenN l) && (lenN (bits s) =? k) then getN (occurrence_positions (value (bits s)) o l) r else None).
Proof using Hb. intros Hs Hr. destruct (C59_select_offset o r s Hs) as [E|[_ E]]; [auto|lia]. Qed.
Theorem C35_select_u64_partial r s : s < 2 ^ k -> lenN l + r < 2 ^ 64 ->
  wm_select_u64 w r s = Ok (if k <=? 64 then getN (occurrence_positions s 0 l) r else None).
Proof using Hb.
  intros Hs Hr. destruct (len_bits_eqs _ _ _ Hb) as [E1 E2]. unfold wm_select_u64. rewrite E2.
  destruct (N.ltb_spec 64 k), (N.leb_spec k 64); try lia; [reflexivity|].
  pose proof (wm_built_ok _ _ _ Hb) as G. unfold wm_select_u64_unchecked, wm_select_offset_u64_unchecked.
  destruct (select_any w l k G (rd_u64 w s) s 0 r) as [(p & E & Hp)|[E Ho]]; [now apply (rd_u64_reads w l)|lia| |unfold U64 in Ho; lia].
  rewrite E. cbn [bind]. rewrite Hp. now rewrite (N.mod_small s).
Qed.
Theorem C35_select_partial r s : wf s -> lenN l + r < 2 ^ 64 ->
  wm_select w r s = Ok (if lenN (bits s) =? k then getN (occurrence_positions (value (bits s)) 0 l) r else None).
Proof using Hb.
  intros Hs Hr. destruct (len_bits_eqs _ _ _ Hb) as [E1 E2]. unfold wm_select. rewrite E2, lenN_bits.
  destruct (N.eqb_spec (blen s) k); [|reflexivity].
  pose proof (wm_built_ok _ _ _ Hb) as G. unfold wm_select_unchecked, wm_select_offset_unchecked.
  destruct (select_any w l k G (rd_bv w s) (value (bits s)) 0 r) as [(p & E & Hp)|[E Ho]]; [now apply (rd_bv_reads w l)|lia| |unfold U64 in Ho; lia].
  rewrite E. cbn [bind]. rewrite Hp. rewrite value_mod by (rewrite lenN_bits; auto). reflexivity.
Qed.
End Select.
Example C35_ex : wm_select_u64 ex_wm 1 5 = Ok (Some 4) /\ wm_select_offset ex_wm 4 1 (bv_of 3 5) = Ok (Some 7) /\
  wm_select_offset_u64 ex_wm 4 2 5 = Ok None /\ wm_select_u64 ex_wm 0 6 = Ok None /\ occurrence_positions 5 4 [3; 1; 0; 5; 5; 2; 7; 5] = [4; 7].
Proof. vm_compute. auto. Qed.
Theorem C35_refuted : exists sequence k w r s, wm_from_slice sequence k = Ok w /\ r < 2 ^ 64 /\ s < 2 ^ k /\ Forall (fun x => x < 2 ^ k) sequence /\
  wm_select_u64 w r s = Panic /\ getN (occurrence_positions s 0 sequence) r = None.
Proof.
  exists [0; 1], 1, (match wm_from_slice [0; 1] 1 with Ok w => w | _ => [] end), (2 ^ 64 - 1), 1. vm_compute. repeat split; auto.
Qed.

(** ** C36: order statistics; [sl] is the sorted slice. It exists for every list and is unique
    ([sorted_exists], [sorted_unique]), so the theorems determine the results completely. *)
Fixpoint insert_sorted (x : N) (m : list N) : list N :=
  match m with
  | [] => [x]
  | y :: m' => if x <=? y then x :: m else y :: insert_sorted x m'
  end.
Lemma insert_perm x m : Permutation (insert_sorted x m) (x :: m).
Proof.
  induction m as [|y m IH]; cbn [insert_sorted]; [apply Permutation_refl|]. destruct (x <=? y); [apply Permutation_refl|].
  eapply Permutation_trans; [apply perm_skip, IH|apply perm_swap].
Qed.
Lemma insert_hd x y m : y <= x -> HdRel N.le y m -> HdRel N.le y (insert_sorted x m).
Proof. intros H1 H2. destruct m as [|z m]; cbn [insert_sorted]; [now constructor|]. inversion H2. destruct (x <=? z); now constructor. Qed.
Lemma insert_sorts x m : Sorted N.le m -> Sorted N.le (insert_sorted x m).
Proof.
  induction 1 as [|y m Hm IH Hh]; cbn [insert_sorted]; [repeat constructor|]. destruct (N.leb_spec x y).
  - repeat constructor; auto.
  - constructor; [auto|]. apply insert_hd; [lia|auto].
Qed.
Theorem sorted_exists (m : list N) : exists sl, Permutation sl m /\ Sorted N.le sl.
Proof.
  induction m as [|x m (sl & Hp & Hs)]; [exists []; split; constructor|]. exists (insert_sorted x sl). split; [|now apply insert_sorts].
  eapply Permutation_trans; [apply insert_perm|now apply perm_skip].
Qed.
Theorem sorted_unique (l1 l2 : list N) : Permutation l1 l2 -> Sorted N.le l1 -> Sorted N.le l2 -> l1 = l2.
Proof.
  assert (Htr : Relations_1.Transitive N.le) by (intros x y z; apply N.le_trans).
  revert l2. induction l1 as [|x l1 IH]; intros l2 Hp H1 H2; [now apply Permutation_nil in Hp|]. destruct l2 as [|y l2]; [now apply Permutation_sym, Permutation_nil in Hp|].
  apply (Sorted_StronglySorted Htr) in H1, H2. inversion H1 as [|? ? S1 F1]. inversion H2 as [|? ? S2 F2]. subst.
  rewrite Forall_forall in F1, F2. assert (x = y).
  { assert (I1 : In x (y :: l2)) by (eapply Permutation_in; [exact Hp|now left]). assert (I2 : In y (x :: l1)) by (eapply Permutation_in; [apply Permutation_sym; exact Hp|now left]).
    destruct I1 as [I1|I1], I2 as [I2|I2]; auto. apply F1 in I2. apply F2 in I1. lia. }
  subst y. f_equal. apply IH; [now apply Permutation_cons_inv in Hp|now apply StronglySorted_Sorted|now apply StronglySorted_Sorted].
Qed.

Section Order.
Variables (w : wavelet) (l : list N) (k : N).
Hypothesis Hb : wm_built w l k.

Lemma quantile_bv_any a b i sl : a < b -> b <= lenN l -> i < b - a -> Permutation sl (sliceN a (b - a) l) -> Sorted N.le sl ->
  exists x, getN sl i = Some x /\ wm_quantile_unchecked w a b i = Ok (bv_of k x).
Proof using Hb.
  intros. pose proof (wm_built_ok _ _ _ Hb) as G. unfold wm_quantile_unchecked.
  apply (quantile_any w l k G (rep_bv k) (wr_bv w) (wr_ones w) (wm_partial_quantile w) (bv_from_zeros (wm_bits w)) (bv_of k)); auto.
  - intros. now apply (wr_bv_ok w l k).
  - intros. now apply (wr_ones_ok w l k).
  - now apply (rep_bv_new w l).
  - intros. now apply rep_bv_full.
  - intros. now apply (quant_bv w l k G _ _ _ _ p).
Qed.
Lemma quantile_u64_any a b i sl : k <= 64 -> a < b -> b <= lenN l -> i < b - a -> Permutation sl (sliceN a (b - a) l) -> Sorted N.le sl ->
  exists x, getN sl i = Some x /\ wm_quantile_u64_unchecked w a b i = Ok x.
Proof using Hb.
  intros Hk. intros. pose proof (wm_built_ok _ _ _ Hb) as G. unfold wm_quantile_u64_unchecked.
  apply (quantile_any w l k G rep_u64 wr_u64 wr_u64 (wm_partial_quantile_u64 w) 0 (fun x => x)); auto.
  - intros. now apply (wr_u64_ok k).
  - intros. now apply (wr_u64_ok k).
  - reflexivity.
  - intros. now apply (quant_u64 w l k G _ _ _ _ p).
Qed.
Lemma sl_len a b (sl : list N) : a <= b -> b <= lenN l -> Permutation sl (sliceN a (b - a) l) -> lenN sl = b - a.
Proof using. intros H1 H2 Hp. rewrite (perm_len _ _ Hp). apply lenN_sliceN. lia. Qed.

Theorem C36_quantile a b i sl : a <= b -> Permutation sl (sliceN a (b - a) l) -> Sorted N.le sl ->
  wm_quantile w a b i = Ok (if (a <? lenN l) && (b <=? lenN l) then option_map (bv_of k) (getN sl i) else None).
Proof using Hb.
  intros H1 Hp Hs. destruct (len_bits_eqs _ _ _ Hb) as [E1 E2]. unfold wm_quantile. rewrite E1.
  destruct (N.leb_spec (lenN l) a), (N.ltb_spec a (lenN l)), (N.ltb_spec (lenN l) b), (N.leb_spec b (lenN l)); try lia; cbn [orb andb]; try reflexivity.
  rewrite (sub_ok b) by auto. cbn [bind]. destruct (N.leb_spec (b - a) i).
  - rewrite getN_ge; [reflexivity|]. rewrite (sl_len a b sl); auto.
  - destruct (quantile_bv_any a b i sl) as (x & Ex & E); auto; [lia|]. rewrite E, Ex. reflexivity.
Qed.
Theorem C36_quantile_u64 a b i sl : a <= b -> Permutation sl (sliceN a (b - a) l) -> Sorted N.le sl ->
  wm_quantile_u64 w a b i = Ok (if (a <? lenN l) && (b <=? lenN l) && (k <=? 64) then getN sl i else None).
Proof using Hb.
  intros H1 Hp Hs. destruct (len_bits_eqs _ _ _ Hb) as [E1 E2]. unfold wm_quantile_u64. rewrite E1, E2.
  destruct (N.leb_spec (lenN l) a), (N.ltb_spec a (lenN l)), (N.ltb_spec (lenN l) b), (N.leb_spec b (lenN l)), (N.ltb_spec 64 k), (N.leb_spec k 64); try lia; cbn [orb andb]; try reflexivity.
  rewrite (sub_ok b) by auto. cbn [bind]. destruct (N.leb_spec (b - a) i).
  - rewrite getN_ge; [reflexivity|]. rewrite (sl_len a b sl); auto.
  - destruct (quantile_u64_any a b i sl) as (x & Ex & E); auto; [lia|]. rewrite E, Ex. reflexivity.
Qed.
(** Minimum, maximum and (lower) median. *)
Theorem C36_min a b sl : a <= b -> Permutation sl (sliceN a (b - a) l) -> Sorted N.le sl ->
  wm_range_min w a b = Ok (if (a <? lenN l) && (b <=? lenN l) then option_map (bv_of k) (getN sl 0) else None) /\
  wm_range_min_u64 w a b = Ok (if (a <? lenN l) && (b <=? lenN l) && (k <=? 64) then getN sl 0 else None).
Proof using Hb. intros. split; [now apply C36_quantile|now apply C36_quantile_u64]. Qed.
Theorem C36_max a b sl : Permutation sl (sliceN a (b - a) l) -> Sorted N.le sl ->
  wm_range_max w a b = Ok (if (a <? b) && (b <=? lenN l) then option_map (bv_of k) (getN sl (b - a - 1)) else None) /\
  wm_range_max_u64 w a b = Ok (if (a <? b) && (b <=? lenN l) && (k <=? 64) then getN sl (b - a - 1) else None).
Proof using Hb.
  intros Hp Hs. unfold wm_range_max, wm_range_max_u64. destruct (N.ltb_spec a b); cbn [negb andb]; [|auto].
  rewrite (sub_ok b) by lia. cbn [bind]. rewrite (sub_ok (b - a)) by lia. cbn [bind].
  rewrite (C36_quantile a b _ sl), (C36_quantile_u64 a b _ sl) by (auto; lia). destruct (N.leb_spec b (lenN l)); [|rewrite andb_false_r; auto].
  destruct (N.ltb_spec a (lenN l)); [auto|lia].
Qed.
Theorem C36_median a b sl : Permutation sl (sliceN a (b - a) l) -> Sorted N.le sl ->
  wm_range_median w a b = Ok (if (a <? b) && (b <=? lenN l) then option_map (bv_of k) (getN sl ((b - a - 1) / 2)) else None) /\
  wm_range_median_u64 w a b = Ok (if (a <? b) && (b <=? lenN l) && (k <=? 64) then getN sl ((b - a - 1) / 2) else None).
Proof using Hb.
  intros Hp Hs. destruct (len_bits_eqs _ _ _ Hb) as [E1 E2]. unfold wm_range_median, wm_range_median_u64. rewrite E1, E2.
  destruct (N.ltb_spec a b); cbn [negb orb andb]; [|auto].
  rewrite (sub_ok b) by lia. cbn [bind]. rewrite (sub_ok (b - 1)) by lia. cbn [bind]. replace (b - 1 - a) with (b - a - 1) by lia.
  rewrite (C36_quantile a b _ sl), (C36_quantile_u64 a b _ sl) by (auto; lia).
  destruct (N.leb_spec b (lenN l)), (N.ltb_spec (lenN l) b), (N.ltb_spec a (lenN l)), (N.ltb_spec 64 k), (N.leb_spec k 64); try lia; cbn [orb andb]; auto.
Qed.
Lemma slice_all : sliceN 0 (lenN l - 0) l = l.
Proof using. unfold sliceN, dropN. cbn [N.to_nat skipn]. apply takeN_all. lia. Qed.
Theorem C36_sorted i sl : Permutation sl l -> Sorted N.le sl ->
  wm_get_sorted w i = Ok (option_map (bv_of k) (getN sl i)) /\
  wm_get_sorted_u64 w i = Ok (if k <=? 64 then getN sl i else None).
Proof using Hb.
  intros Hp Hs. destruct (len_bits_eqs _ _ _ Hb) as [E1 E2]. unfold wm_get_sorted, wm_get_sorted_u64, wm_get_sorted_unchecked, wm_get_sorted_u64_unchecked. rewrite E1, E2.
  pose proof (perm_len _ _ Hp) as Hl. rewrite <- slice_all in Hp.
  destruct (N.leb_spec (lenN l) i) as [Hi|Hi]; [rewrite !getN_ge by lia; split; [reflexivity|]; now destruct (k <=? 64)|]. cbn [orb]. split.
  - destruct (quantile_bv_any 0 (lenN l) i sl) as (x & Ex & E); auto; try lia. now rewrite E, Ex.
  - destruct (N.ltb_spec 64 k), (N.leb_spec k 64); try lia; [reflexivity|]. destruct (quantile_u64_any 0 (lenN l) i sl) as (x & Ex & E); auto; try lia. now rewrite E, Ex.
Qed.
(** The unchecked versions on valid ranges. *)
Theorem C36_unchecked a b i sl : a < b -> b <= lenN l -> i < b - a -> Permutation sl (sliceN a (b - a) l) -> Sorted N.le sl ->
  exists x lo hi med, getN sl i = Some x /\ getN sl 0 = Some lo /\ getN sl (b - a - 1) = Some hi /\ getN sl ((b - a - 1) / 2) = Some med /\
    wm_quantile_unchecked w a b i = Ok (bv_of k x) /\ wm_range_min_unchecked w a b = Ok (bv_of k lo) /\
    wm_range_max_unchecked w a b = Ok (bv_of k hi) /\ wm_range_median_unchecked w a b = Ok (bv_of k med) /\
    (k <= 64 -> wm_quantile_u64_unchecked w a b i = Ok x /\ wm_range_min_u64_unchecked w a b = Ok lo /\
       wm_range_max_u64_unchecked w a b = Ok hi /\ wm_range_median_u64_unchecked w a b = Ok med).
Proof using Hb.
  intros H1 H2 Hi Hp Hs. assert (Hm : (b - a - 1) / 2 < b - a) by dlia.
  destruct (quantile_bv_any a b i sl) as (x & Ex & F1); auto. destruct (quantile_bv_any a b 0 sl) as (lo & Elo & F2); auto; [lia|].
  destruct (quantile_bv_any a b (b - a - 1) sl) as (hi & Ehi & F3); auto; [lia|]. destruct (quantile_bv_any a b ((b - a - 1) / 2) sl) as (med & Emed & F4); auto.
  exists x, lo, hi, med. unfold wm_range_min_unchecked, wm_range_max_unchecked, wm_range_median_unchecked, wm_range_min_u64_unchecked, wm_range_max_u64_unchecked, wm_range_median_u64_unchecked.
  rewrite !(sub_ok b) by lia. cbn [bind]. rewrite (sub_ok (b - a)), (sub_ok (b - 1)) by lia. cbn [bind]. replace (b - 1 - a) with (b - a - 1) by lia.
  do 8 (split; [assumption|]). intros Hk.
  destruct (quantile_u64_any a b i sl) as (x' & Ex' & G1); auto. destruct (quantile_u64_any a b 0 sl) as (lo' & Elo' & G2); auto; [lia|].
  destruct (quantile_u64_any a b (b - a - 1) sl) as (hi' & Ehi' & G3); auto; [lia|]. destruct (quantile_u64_any a b ((b - a - 1) / 2) sl) as (med' & Emed' & G4); auto.
  repeat split; congruence.
Qed.
End Order.
Example C36_ex : wm_quantile_u64 ex_wm 2 7 3 = Ok (Some 5) /\ wm_quantile ex_wm 2 7 0 = Ok (Some (bv_of 3 0)) /\ wm_quantile_u64 ex_wm 2 7 5 = Ok None /\
  wm_range_min_u64 ex_wm 3 8 = Ok (Some 2) /\ wm_range_max ex_wm 1 4 = Ok (Some (bv_of 3 5)) /\ wm_range_median_u64 ex_wm 2 6 = Ok (Some 2) /\
  wm_get_sorted_u64 ex_wm 7 = Ok (Some 7) /\
  (let sl := [0; 2; 5; 5; 7] in Permutation sl (sliceN 2 5 [3; 1; 0; 5; 5; 2; 7; 5]) /\ Sorted N.le sl).
Proof.
  repeat (split; [vm_compute; reflexivity|]). split.
  - change (Permutation [0; 2; 5; 5; 7] [0; 5; 5; 2; 7]). apply perm_skip. change [2; 5; 5; 7] with ([2] ++ [5; 5; 7]). change [5; 5; 2; 7] with ([5; 5] ++ 2 :: [7]). apply Permutation_cons_app. apply Permutation_refl.
  - repeat constructor; discriminate.
Qed.

(** ** C37: predecessor and successor. *)
Definition is_predecessor (s : N) (slice : list N) (o : option N) : Prop :=
  match o with
  | Some x => In x slice /\ x <= s /\ forall y, In y slice -> y <= s -> y <= x
  | None => forall y, In y slice -> s < y
  end.
Definition is_successor (s : N) (slice : list N) (o : option N) : Prop :=
  match o with
  | Some x => In x slice /\ s <= x /\ forall y, In y slice -> s <= y -> x <= y
  | None => forall y, In y slice -> y < s
  end.
Section Neighbours.
Variables (w : wavelet) (l : list N) (k : N).
Hypothesis Hb : wm_built w l k.

Lemma pred_guard (c : bool) a b : wm_len w = lenN l -> c = true -> a < b -> b <= lenN l -> (negb c || negb (a <? b) || wm_is_empty w || (wm_len w <? b)) = false.
Proof using.
  intros E -> H1 H2. unfold wm_is_empty. rewrite E. destruct (N.ltb_spec a b); [|lia]. destruct (N.eqb_spec (lenN l) 0); [lia|]. destruct (N.ltb_spec (lenN l) b); [lia|]. reflexivity.
Qed.
Theorem C37_predecessor a b s : wf s -> lenN (bits s) = k -> a < b -> b <= lenN l ->
  exists o, wm_predecessor w a b s = Ok (option_map (bv_of k) o) /\ is_predecessor (value (bits s)) (sliceN a (b - a) l) o.
Proof using Hb.
  intros Hs Hk H1 H2. pose proof (wm_built_ok _ _ _ Hb) as G. unfold wm_predecessor. rewrite pred_guard; auto; [|apply (wm_len_ok _ _ _ G)|rewrite <- lenN_bits, Hk, (wm_bits_ok _ _ _ G); apply N.eqb_refl].
  destruct (pred_any w l k G (rep_bv k) (wr_bv w) (wr_ones w) (wm_partial_quantile w) (bv_from_zeros (wm_bits w)) (bv_of k)) with (rd := rd_bv w s) (s := value (bits s)) (a := a) (b := b) as (o & E & Ho); auto.
  - intros. now apply (wr_bv_ok w l k).
  - intros. now apply (wr_ones_ok w l k).
  - now apply (rep_bv_new w l).
  - intros. now apply rep_bv_full.
  - intros. now apply (quant_bv w l k G _ _ _ _ p).
  - apply (rd_bv_reads w l); auto. now rewrite <- lenN_bits.
  - exists o. split; [exact E|]. rewrite value_mod in Ho by auto. exact Ho.
Qed.
Theorem C37_successor a b s : wf s -> lenN (bits s) = k -> a < b -> b <= lenN l ->
  exists o, wm_successor w a b s = Ok (option_map (bv_of k) o) /\ is_successor (value (bits s)) (sliceN a (b - a) l) o.
Proof using Hb.
  intros Hs Hk H1 H2. pose proof (wm_built_ok _ _ _ Hb) as G. unfold wm_successor. rewrite pred_guard; auto; [|apply (wm_len_ok _ _ _ G)|rewrite <- lenN_bits, Hk, (wm_bits_ok _ _ _ G); apply N.eqb_refl].
  destruct (succ_any w l k G (rep_bv k) (wr_bv w) (wr_ones w) (wm_partial_quantile w) (bv_from_zeros (wm_bits w)) (bv_of k)) with (rd := rd_bv w s) (s := value (bits s)) (a := a) (b := b) as (o & E & Ho); auto.
  - intros. now apply (wr_bv_ok w l k).
  - intros. now apply (wr_ones_ok w l k).
  - now apply (rep_bv_new w l).
  - intros. now apply rep_bv_full.
  - intros. now apply (quant_bv w l k G _ _ _ _ p).
  - apply (rd_bv_reads w l); auto. now rewrite <- lenN_bits.
  - exists o. split; [exact E|]. rewrite value_mod in Ho by auto. exact Ho.
Qed.
Theorem C58_predecessor_u64 a b s : k <= 64 -> s < 2 ^ 64 -> a < b -> b <= lenN l ->
  exists o, wm_predecessor_u64 w a b s = Ok o /\ is_predecessor (s mod 2 ^ k) (sliceN a (b - a) l) o.
Proof using Hb.
  intros Hk Hs H1 H2. pose proof (wm_built_ok _ _ _ Hb) as G. unfold wm_predecessor_u64.
  replace (64 <? wm_bits w) with (negb (k <=? 64)) by (rewrite (wm_bits_ok _ _ _ G); destruct (N.leb_spec k 64), (N.ltb_spec 64 k); auto; lia).
  rewrite pred_guard; auto; [|apply (wm_len_ok _ _ _ G)|now apply N.leb_le].
  destruct (pred_any w l k G rep_u64 wr_u64 wr_u64 (wm_partial_quantile_u64 w) 0 (fun x => x)) with (rd := rd_u64 w s) (s := s) (a := a) (b := b) as (o & E & Ho); auto.
  - intros. now apply (wr_u64_ok k).
  - intros. now apply (wr_u64_ok k).
  - reflexivity.
  - intros. now apply (quant_u64 w l k G _ _ _ _ p).
  - now apply (rd_u64_reads w l).
  - exists o. split; [rewrite E; now destruct o|]. exact Ho.
Qed.
Theorem C58_successor_u64 a b s : k <= 64 -> s < 2 ^ 64 -> a < b -> b <= lenN l ->
  exists o, wm_successor_u64 w a b s = Ok o /\ is_successor (s mod 2 ^ k) (sliceN a (b - a) l) o.
Proof using Hb.
  intros Hk Hs H1 H2. pose proof (wm_built_ok _ _ _ Hb) as G. unfold wm_successor_u64.
  replace (64 <? wm_bits w) with (negb (k <=? 64)) by (rewrite (wm_bits_ok _ _ _ G); destruct (N.leb_spec k 64), (N.ltb_spec 64 k); auto; lia).
  rewrite pred_guard; auto; [|apply (wm_len_ok _ _ _ G)|now apply N.leb_le].
  destruct (succ_any w l k G rep_u64 wr_u64 wr_u64 (wm_partial_quantile_u64 w) 0 (fun x => x)) with (rd := rd_u64 w s) (s := s) (a := a) (b := b) as (o & E & Ho); auto.
  - intros. now apply (wr_u64_ok k).
  - intros. now apply (wr_u64_ok k).
  - reflexivity.
  - intros. now apply (quant_u64 w l k G _ _ _ _ p).
  - now apply (rd_u64_reads w l).
  - exists o. split; [rewrite E; now destruct o|]. exact Ho.
Qed.
Theorem C37_predecessor_u64 a b s : k <= 64 -> s < 2 ^ k -> a < b -> b <= lenN l ->
  exists o, wm_predecessor_u64 w a b s = Ok o /\ is_predecessor s (sliceN a (b - a) l) o.
Proof using Hb.
  intros Hk Hs H1 H2. destruct (C58_predecessor_u64 a b s) as (o & E & Ho); auto; [eapply N.lt_le_trans; [exact Hs|apply N.pow_le_mono_r; lia]|].
  rewrite (N.mod_small s) in Ho by auto. eauto.
Qed.
Theorem C37_successor_u64 a b s : k <= 64 -> s < 2 ^ k -> a < b -> b <= lenN l ->
  exists o, wm_successor_u64 w a b s = Ok o /\ is_successor s (sliceN a (b - a) l) o.
Proof using Hb.
  intros Hk Hs H1 H2. destruct (C58_successor_u64 a b s) as (o & E & Ho); auto; [eapply N.lt_le_trans; [exact Hs|apply N.pow_le_mono_r; lia]|].
  rewrite (N.mod_small s) in Ho by auto. eauto.
Qed.
Theorem C37_none a b : (b <= a \/ lenN l < b) ->
  (forall s, wm_predecessor w a b s = Ok None /\ wm_successor w a b s = Ok None) /\
  (forall s, wm_predecessor_u64 w a b s = Ok None /\ wm_successor_u64 w a b s = Ok None).
Proof using Hb.
  intros Hab. destruct (len_bits_eqs _ _ _ Hb) as [E1 E2]. unfold wm_predecessor, wm_successor, wm_predecessor_u64, wm_successor_u64. rewrite E1.
  split; intros s; destruct (N.ltb_spec a b), (N.ltb_spec (lenN l) b); try lia; cbn [negb]; rewrite ?orb_true_r; cbn [orb]; auto.
Qed.
Theorem C37_width a b : (forall s, lenN (bits s) <> k -> wm_predecessor w a b s = Ok None /\ wm_successor w a b s = Ok None) /\
  (64 < k -> forall s, wm_predecessor_u64 w a b s = Ok None /\ wm_successor_u64 w a b s = Ok None).
Proof using Hb.
  destruct (len_bits_eqs _ _ _ Hb) as [E1 E2]. unfold wm_predecessor, wm_successor, wm_predecessor_u64, wm_successor_u64. rewrite E2. split.
  - intros s Hs. rewrite lenN_bits in Hs. destruct (N.eqb_spec (blen s) k); [contradiction|]. auto.
  - intros Hk s. destruct (N.ltb_spec 64 k); [|lia]. auto.
Qed.
End Neighbours.
Example C37_ex : wm_predecessor_u64 ex_wm 1 6 4 = Ok (Some 2) /\ wm_successor ex_wm 1 6 (bv_of 3 3) = Ok (Some (bv_of 3 5)) /\
  wm_predecessor ex_wm 3 5 (bv_of 3 4) = Ok None /\ wm_successor_u64 ex_wm 1 6 6 = Ok None.
Proof. vm_compute. auto. Qed.

(** ** C38: symbols of more than [k] bits are reduced modulo [2^k] (C58 gives the exact result). *)
Theorem C38_refuted : exists sequence k w s, wm_from_slice sequence k = Ok w /\ Forall (fun x => x < 2 ^ k) sequence /\ s < 2 ^ 64 /\
  wm_rank_u64 w (lenN sequence) s <> Ok (Some (occurrences s sequence)) /\
  exists v, wm_predecessor_u64 w 0 (lenN sequence) s = Ok v /\ ~ is_predecessor s sequence v.
Proof.
  exists [1; 0; 1], 1, (match wm_from_slice [1; 0; 1] 1 with Ok w => w | _ => [] end), 2.
  split; [vm_compute; reflexivity|]. split; [repeat constructor|]. split; [reflexivity|]. split; [vm_compute; discriminate|].
  exists (Some 0). split; [vm_compute; reflexivity|]. intros (_ & _ & Hm). specialize (Hm 1 (or_introl eq_refl) ltac:(lia)). lia.
Qed.
Theorem C38_symbols_partial w l k s : wm_built w l k -> k <= 64 -> s < 2 ^ k ->
  (forall i, i <= lenN l -> wm_rank_u64 w i s = Ok (Some (occurrences s (takeN i l)))) /\
  (forall a b, a < b -> b <= lenN l -> exists v, wm_predecessor_u64 w a b s = Ok v /\ is_predecessor s (sliceN a (b - a) l) v).
Proof.
  intros Hb Hk Hs. split.
  - intros i Hi. rewrite (C34_rank_u64 w l k Hb i s Hs). destruct (N.leb_spec i (lenN l)), (N.leb_spec k 64); try lia. reflexivity.
  - intros a b H1 H2. now apply (C37_predecessor_u64 w l k Hb).
Qed.
Example C58_ex : wm_rank_range_u64 ex_wm 0 8 13 = Ok (Some 3) /\ wm_predecessor_u64 ex_wm 0 8 12 = Ok (Some 3).
Proof. vm_compute. auto. Qed.

(** ** C39: inverted ranges panic (in builds with overflow checks). *)
Theorem C39_refuted : exists sequence k w a b, wm_from_slice sequence k = Ok w /\ b < a /\ a < lenN sequence /\
  wm_rank_range_u64 w a b 1 = Panic /\ wm_quantile_u64 w a b 0 = Panic /\ wm_quantile w a b 0 = Panic /\ wm_rank_range w a b (bv_of 1 1) = Panic.
Proof. exists [1; 0; 1], 1, (match wm_from_slice [1; 0; 1] 1 with Ok w => w | _ => [] end), 1, 0. vm_compute. repeat split; auto. Qed.

Theorem C39_no_panic_partial w l k a b : wm_built w l k -> a <= b ->
  (forall s, wf s -> exists o, wm_rank_range w a b s = Ok o) /\ (forall s, s < 2 ^ 64 -> exists o, wm_rank_range_u64 w a b s = Ok o) /\
  (forall i, exists o, wm_quantile w a b i = Ok o) /\ (forall i, exists o, wm_quantile_u64 w a b i = Ok o).
Proof.
  intros Hb H1. destruct (sorted_exists (sliceN a (b - a) l)) as (sl & Hp & Hs). split; [|split; [|split]].
  - intros s Hw. rewrite (C34_rank_range w l k Hb) by auto. eauto.
  - intros s Hw. rewrite (C58_rank_u64 w l k Hb) by auto. eauto.
  - intros i. rewrite (C36_quantile w l k Hb a b i sl) by auto. eauto.
  - intros i. rewrite (C36_quantile_u64 w l k Hb a b i sl) by auto. eauto.
Qed.
Lemma rank_loop_swap rd ds : forall level a b c, wm_rank_loop rd ds level b a = Ok c ->
  wm_rank_loop rd ds level a b = if c =? 0 then Ok 0 else Panic.
Proof.
  induction ds as [|d ds IH]; intros level a b c E; cbn [wm_rank_loop] in *.
  - unfold sub in *. destruct (N.leb_spec b a); [|discriminate]. injection E as <-. destruct (N.leb_spec a b), (N.eqb_spec (a - b) 0); try lia; auto. f_equal. lia.
  - destruct (rd level) as [bit| |]; cbn [bind] in *; try discriminate. destruct (wm_down d bit b) as [b'| |]; cbn [bind] in *; try discriminate.
    destruct (wm_down d bit a) as [a'| |]; cbn [bind] in *; try discriminate. now apply IH.
Qed.
(** The exact outcome on inverted ranges inside the sequence. *)
Theorem C60_inverted w l k a b : wm_built w l k -> b < a -> a < lenN l ->
  (forall i, wm_quantile w a b i = Panic /\ (k <= 64 -> wm_quantile_u64 w a b i = Panic)) /\
  (forall s, wf s -> lenN (bits s) = k ->
     wm_rank_range w a b s = if occurrences (value (bits s)) (sliceN b (a - b) l) =? 0 then Ok (Some 0) else Panic) /\
  (forall s, k <= 64 -> s < 2 ^ k ->
     wm_rank_range_u64 w a b s = if occurrences s (sliceN b (a - b) l) =? 0 then Ok (Some 0) else Panic).
Proof.
  intros Hb H1 H2. destruct (len_bits_eqs _ _ _ Hb) as [E1 E2]. split; [|split].
  - intros i. unfold wm_quantile, wm_quantile_u64. rewrite E1, E2. destruct (N.leb_spec (lenN l) a), (N.ltb_spec (lenN l) b); try lia. cbn [orb].
    assert (Es : sub b a = Panic) by (unfold sub; destruct (N.leb_spec a b); [lia|reflexivity]). rewrite Es. split; [reflexivity|].
    intros Hk. destruct (N.ltb_spec 64 k); [lia|reflexivity].
  - intros s Hs Hk. unfold wm_rank_range. rewrite E1, E2, <- lenN_bits, Hk, N.eqb_refl. destruct (N.leb_spec (lenN l) a), (N.ltb_spec (lenN l) b); try lia. cbn [orb negb].
    unfold wm_rank_range_unchecked. rewrite (rank_loop_swap _ _ _ _ _ _ (rank_bv_any w l k Hb b a s ltac:(lia) ltac:(lia) Hs Hk)).
    destruct (_ =? 0); reflexivity.
  - intros s Hk Hs. unfold wm_rank_range_u64. rewrite E1, E2. destruct (N.leb_spec (lenN l) a), (N.ltb_spec (lenN l) b), (N.ltb_spec 64 k); try lia. cbn [orb negb].
    unfold wm_rank_range_u64_unchecked. rewrite (rank_loop_swap _ _ _ _ _ _ (rank_u64_any w l k Hb b a s ltac:(lia) ltac:(lia) Hk)). rewrite (N.mod_small s) by auto.
    destruct (_ =? 0); reflexivity.
Qed.
Example C60_ex : wm_rank_range_u64 ex_wm 4 1 5 = Panic /\ wm_rank_range_u64 ex_wm 4 1 7 = Ok (Some 0).
Proof. vm_compute. auto. Qed.

(** ** C40 (and the wavelet instances of C19): the iterators. *)
Section Iterators.
Variables (w : wavelet) (l : list N) (k : N).
Hypothesis Hb : wm_built w l k.
Hypothesis Hl : lenN l < 2 ^ 64.

Lemma getN_In' {A} (m : list A) i x : getN m i = Some x -> In x m.
Proof using. unfold getN. destruct (i <? lenN m); [|discriminate]. apply nth_error_In. Qed.
Lemma iter_value ops : skips_inside true true (map (bv_of k) l) ops ->
  iter_run (gi_step (wm_get_value w)) (gi_new (wm_iter_len w)) ops = Ok (iter_spec_run (map (bv_of k) l) ops).
Proof using Hb Hl.
  intros Hs. unfold wm_iter_len. rewrite (proj1 (len_bits_eqs _ _ _ Hb)), <- (lenN_map (bv_of k)).
  apply (gi_run_ok _ _ (wm_get_value_unchecked w)); auto.
  - now rewrite lenN_map.
  - intros i _. rewrite getN_map. now apply C32_get.
  - intros i x Hx. rewrite getN_map in Hx. destruct (getN l i) eqn:E; [|discriminate]. injection Hx as <-. now apply (C32_get _ _ _ i Hb).
Qed.
Theorem C40_iter ops : skips_inside true true (map (bv_of k) l) ops ->
  iter_run (gi_step (wm_get_value w)) (gi_new (wm_iter_len w)) ops = Ok (iter_spec_run (map (bv_of k) l) ops).
Proof using Hb Hl. apply iter_value. Qed.
Theorem C40_iter_u64 ops : skips_inside true true l ops ->
  match wm_iter_u64_len w with
  | Some n => k <= 64 /\ iter_run (gi_step (wm_get_u64 w)) (gi_new n) ops = Ok (iter_spec_run l ops)
  | None => 64 < k
  end.
Proof using Hb Hl.
  intros Hs. unfold wm_iter_u64_len. destruct (len_bits_eqs _ _ _ Hb) as [E1 E2]. rewrite E1, E2. destruct (N.ltb_spec 64 k); [auto|]. split; [auto|].
  assert (Hg : forall i, wm_get_u64 w i = Ok (getN l i)) by (intros i; destruct (C32_get _ _ _ i Hb) as (_ & -> & _); destruct (N.leb_spec k 64); [reflexivity|lia]).
  apply (gi_run_ok _ _ (wm_get_u64_unchecked w)); auto. intros i x Hx. now apply (C32_get _ _ _ i Hb).
Qed.
Theorem C40_iter_sorted sl ops : Permutation sl l -> Sorted N.le sl -> skips_inside true true (map (bv_of k) sl) ops ->
  iter_run (gi_step (wm_get_sorted w)) (gi_new (wm_iter_len w)) ops = Ok (iter_spec_run (map (bv_of k) sl) ops).
Proof using Hb Hl.
  intros Hp Hso Hs. unfold wm_iter_len. rewrite (proj1 (len_bits_eqs _ _ _ Hb)), <- (perm_len _ _ Hp), <- (lenN_map (bv_of k)).
  assert (Hg : forall i, wm_get_sorted w i = Ok (getN (map (bv_of k) sl) i)) by (intros i; rewrite getN_map; now apply (C36_sorted w l k Hb i sl)).
  apply (gi_run_ok _ _ (wm_get_sorted_unchecked w)); auto; [rewrite lenN_map, (perm_len _ _ Hp); auto|].
  intros i x Hx. assert (Hi : i < lenN l) by (destruct (getN_Some_inv _ _ _ Hx) as [Hi _]; rewrite lenN_map, (perm_len _ _ Hp) in Hi; auto).
  specialize (Hg i). rewrite Hx in Hg. unfold wm_get_sorted in Hg. rewrite (proj1 (len_bits_eqs _ _ _ Hb)) in Hg. destruct (N.leb_spec (lenN l) i); [lia|].
  destruct (wm_get_sorted_unchecked w i); cbn [bind] in Hg; congruence.
Qed.
Theorem C40_iter_sorted_u64 sl ops : Permutation sl l -> Sorted N.le sl -> skips_inside true true sl ops ->
  match wm_iter_u64_len w with
  | Some n => k <= 64 /\ iter_run (gi_step (wm_get_sorted_u64 w)) (gi_new n) ops = Ok (iter_spec_run sl ops)
  | None => 64 < k
  end.
Proof using Hb Hl.
  intros Hp Hso Hs. unfold wm_iter_u64_len. destruct (len_bits_eqs _ _ _ Hb) as [E1 E2]. rewrite E1, E2. destruct (N.ltb_spec 64 k); [auto|]. split; [auto|].
  rewrite <- (perm_len _ _ Hp).
  assert (Hg : forall i, wm_get_sorted_u64 w i = Ok (getN sl i)) by (intros i; destruct (C36_sorted w l k Hb i sl Hp Hso) as [_ ->]; destruct (N.leb_spec k 64); [reflexivity|lia]).
  apply (gi_run_ok _ _ (wm_get_sorted_u64_unchecked w)); auto; [rewrite (perm_len _ _ Hp); auto|].
  intros i x Hx. assert (Hi : i < lenN l) by (destruct (getN_Some_inv _ _ _ Hx) as [Hi _]; rewrite (perm_len _ _ Hp) in Hi; auto).
  specialize (Hg i). rewrite Hx in Hg. unfold wm_get_sorted_u64 in Hg. rewrite E1, E2 in Hg. destruct (N.leb_spec (lenN l) i), (N.ltb_spec 64 k); try lia. cbn [orb] in Hg.
  destruct (wm_get_sorted_u64_unchecked w i); cbn [bind] in Hg; congruence.
Qed.
End Iterators.
Example C40_ex : iter_run (gi_step (wm_get_sorted_u64 ex_wm)) (gi_new (wm_iter_len ex_wm)) [INext; INth 1; INextBack; ILen] =
  Ok [OItem (Some 0); OItem (Some 2); OItem (Some 7); OLen 4] /\
  iter_run (gi_step (wm_get_value ex_wm)) (gi_new (wm_iter_len ex_wm)) [INthBack 1; INext] = Ok [OItem (Some (bv_of 3 7)); OItem (Some (bv_of 3 3))].
Proof. vm_compute. auto. Qed.
