(** * Properties C19, C20, C52: the index-based iterators of [BitVec] and [RsVec].

    [map bitN (bits bv)] is the list of values that [get] shows ([C00_bits_observable],
    [C15_get]). The wavelet matrix instance is in PropsWavelet.v. *)
From Verif Require Import Base Spec BaseFacts BitVecModel BitVecProofs PropsBitVec
  RsVecModel RsVecProofs RsEqProofs IterSpec IterFacts IterLazy GenIterModel GenIterProofs PropsRsVec.

Lemma getN_map {A B} (f : A -> B) l i : getN (map f l) i = option_map f (getN l i).
Proof. unfold getN. rewrite lenN_map, nth_error_map. now destruct (i <? lenN l). Qed.

Lemma bv_getter bv i : wf bv -> bv_get bv i = Ok (getN (map bitN (bits bv)) i).
Proof. intros H. now rewrite getN_map, bv_get_spec. Qed.
Lemma bv_getter_unchecked bv i x : wf bv -> getN (map bitN (bits bv)) i = Some x -> bv_get_unchecked bv i = Ok x.
Proof.
  intros H E. rewrite getN_map in E. destruct (getN (bits bv) i) eqn:Eb; [|discriminate]. injection E as <-.
  pose proof (getN_some_lt _ _ _ Eb) as Hl. rewrite lenN_bits in Hl.
  rewrite bv_get_unchecked_ok by auto. rewrite (getN_ok false), nthN_bits in Eb by (rewrite ?lenN_bits; auto).
  now injection Eb as ->.
Qed.
Lemma rs_getter bv rs i : wf bv -> rs_good bv rs -> rs_get rs i = Ok (getN (map bitN (bits bv)) i).
Proof. intros H G. now rewrite getN_map, (rs_get_ok bv). Qed.
Lemma rs_getter_unchecked bv rs i x : wf bv -> rs_good bv rs ->
  getN (map bitN (bits bv)) i = Some x -> rs_get_unchecked rs i = Ok x.
Proof.
  intros H G E. rewrite getN_map in E. destruct (getN (bits bv) i) eqn:Eb; [|discriminate]. injection E as <-.
  pose proof (getN_some_lt _ _ _ Eb) as Hl. rewrite lenN_bits in Hl.
  rewrite (rs_get_unchecked_ok bv) by auto. rewrite (getN_ok false), nthN_bits in Eb by (rewrite ?lenN_bits; auto).
  now injection Eb as ->.
Qed.

(** ** C19: for every sequence of calls in which [nth]/[nth_back] ask for existing elements. *)
Theorem C19_bit_vec_iter bv ops :
  wf bv -> lenN (bits bv) < 2 ^ 64 -> skips_inside true true (map bitN (bits bv)) ops ->
  iter_run (gi_step (bv_get bv)) (gi_new (bv_length bv)) ops = Ok (iter_spec_run (map bitN (bits bv)) ops).
Proof.
  intros H Hl Hs.
  assert (E : bv_length bv = lenN (map bitN (bits bv))) by (rewrite lenN_map, lenN_bits; reflexivity). rewrite E.
  apply (gi_run_ok _ _ (bv_get_unchecked bv)); auto.
  - now rewrite lenN_map.
  - intros. now apply bv_getter.
  - intros. now apply bv_getter_unchecked.
Qed.
Theorem C19_rs_vec_iter bv rs ops :
  wf bv -> rs_from_bit_vec bv = Ok rs -> lenN (bits bv) < 2 ^ 64 ->
  skips_inside true true (map bitN (bits bv)) ops ->
  iter_run (gi_step (rs_get rs)) (gi_new (rlen rs)) ops = Ok (iter_spec_run (map bitN (bits bv)) ops).
Proof.
  intros H E0 Hl Hs. pose proof (built bv rs H E0) as G.
  assert (E : rlen rs = lenN (map bitN (bits bv))) by (rewrite lenN_map, lenN_bits; apply (good_len _ _ G)). rewrite E.
  apply (gi_run_ok _ _ (rs_get_unchecked rs)); auto.
  - now rewrite lenN_map.
  - intros. now apply rs_getter.
  - intros. now apply (rs_getter_unchecked bv).
Qed.
Definition ex_ops : list iter_op :=
  [INth 3; INext; INextBack; INthBack 60; ILen; INext; INextBack; INthBack 0; INext; INextBack; ILen].
Example C19_ex :
  skips_inside true true (map bitN (bits ex_bv)) ex_ops /\
  iter_run (gi_step (bv_get ex_bv)) (gi_new (bv_length ex_bv)) ex_ops =
    Ok [OItem (Some 0); OItem (Some 1); OItem (Some 0); OItem (Some 0); OLen 3; OItem (Some 1); OItem (Some 1);
        OItem (Some 1); OItem None; OItem None; OLen 0].
Proof. split; [vm_compute; repeat split|vm_compute; reflexivity]. Qed.

(** [last] in every state with remaining elements [w] reached by such calls. *)
Inductive gi_reach {A} (get : N -> res (option A)) (l : list A) : gen_iter -> list A -> Prop :=
| gi_reach_new : gi_reach get l (gi_new (lenN l)) l
| gi_reach_step it w op it' o : gi_reach get l it w ->
    match op with INth n | INthBack n => n < lenN w | _ => True end ->
    gi_step get it op = Ok (it', o) -> gi_reach get l it' (fst (iter_spec w op)).
Lemma gi_reach_R {A} (l : list A) get getu it w :
  lenN l < U64 -> (forall i, i < lenN l -> get i = Ok (getN l i)) ->
  (forall i x, getN l i = Some x -> getu i = Ok x) ->
  gi_reach get l it w -> gi_R l it w.
Proof.
  intros H1 H2 H3 Hr. induction Hr as [|it w op it' o Hr IH Hop E].
  - now apply (gi_new_R l).
  - destruct (gi_step_ok l get getu H1 H2 H3 it w op IH Hop) as (it2 & E2 & R2). rewrite E in E2.
    now injection E2 as <- _.
Qed.
Theorem C19_last bv it w :
  wf bv -> lenN (bits bv) < 2 ^ 64 -> gi_reach (bv_get bv) (map bitN (bits bv)) it w ->
  gi_last (bv_get_unchecked bv) it = Ok (getN (rev w) 0) /\ gi_count it = lenN w.
Proof.
  intros H Hl Hr.
  assert (R : gi_R (map bitN (bits bv)) it w).
  { apply (gi_reach_R _ (bv_get bv) (bv_get_unchecked bv)); auto.
    - now rewrite lenN_map.
    - intros. now apply bv_getter.
    - intros. now apply bv_getter_unchecked. }
  split.
  - apply (gi_last_ok (map bitN (bits bv)) (bv_get bv)); auto.
    + now rewrite lenN_map.
    + intros. now apply bv_getter.
    + intros. now apply bv_getter_unchecked.
  - unfold gi_count. rewrite (gi_R_len (map bitN (bits bv)) it w) by auto. apply (gi_len_ok (lenN (map bitN (bits bv)))).
    + now rewrite lenN_map.
    + apply R.
Qed.
Theorem C19_rs_last bv rs it w :
  wf bv -> rs_from_bit_vec bv = Ok rs -> lenN (bits bv) < 2 ^ 64 ->
  gi_reach (rs_get rs) (map bitN (bits bv)) it w ->
  gi_last (rs_get_unchecked rs) it = Ok (getN (rev w) 0) /\ gi_count it = lenN w.
Proof.
  intros H E Hl Hr. pose proof (built bv rs H E) as G.
  assert (R : gi_R (map bitN (bits bv)) it w).
  { apply (gi_reach_R _ (rs_get rs) (rs_get_unchecked rs)); auto.
    - now rewrite lenN_map.
    - intros. now apply rs_getter.
    - intros. now apply (rs_getter_unchecked bv). }
  split.
  - apply (gi_last_ok (map bitN (bits bv)) (rs_get rs)); auto.
    + now rewrite lenN_map.
    + intros. now apply rs_getter.
    + intros. now apply (rs_getter_unchecked bv).
  - unfold gi_count. rewrite (gi_R_len (map bitN (bits bv)) it w) by auto. apply (gi_len_ok (lenN (map bitN (bits bv)))).
    + now rewrite lenN_map.
    + apply R.
Qed.

(** ** C20: [nth] past the end does not exhaust the iterator: after [nth(2)] on a vector with one
    bit, [next] still returns that bit; and [nth(2^64-1)] after one element panics. *)
Theorem C20_nth_exhausts_refuted :
  exists bv, wf bv /\ lenN (bits bv) = 1 /\
    iter_run (gi_step (bv_get bv)) (gi_new (bv_length bv)) [INth 2; INext] = Ok [OItem None; OItem (Some 1)] /\
    iter_spec_run (map bitN (bits bv)) [INth 2; INext] = [OItem None; OItem None] /\
    iter_run (gi_step (bv_get bv)) (gi_new (bv_length bv)) [INext; INth (2 ^ 64 - 1)] = Panic.
Proof.
  exists (mkbv [1] 1). split; [split; [reflexivity|repeat constructor]|].
  repeat split; vm_compute; reflexivity.
Qed.

(** ** C52: the exact contract, [lazy_step], for all calls with all arguments. *)
Section Exact.
Context {A : Type}.
Variables (l : list A) (get : N -> res (option A)) (getu : N -> res A).
Hypothesis Hlen : lenN l < U64.
Hypothesis Hget : forall i, i < lenN l -> get i = Ok (getN l i).
Hypothesis Hgetu : forall i x, getN l i = Some x -> getu i = Ok x.

Lemma gi_next_index it w it' o : gi_R l it w -> gi_next get it = Ok (it', o) ->
  gi_index it' = gi_index it + N.min 1 (lenN w).
Proof using Hget Hgetu Hlen.
  intros R. pose proof (gi_R_len l it w R) as El. destruct R as [I Hw]. pose proof (gi_inv_bound _ _ I) as B.
  unfold gi_next. rewrite (gi_empty_rem _ _ I), El. destruct (N.eqb_spec (gi_rem it) 0) as [E|E].
  - intros [= <- _]. rewrite E. lia.
  - rewrite Hget by lia. cbn [bind]. destruct (getN_in l get getu Hlen Hget Hgetu (gi_index it) ltac:(lia)) as [v ->].
    intros [= <- _]. cbn. lia.
Qed.
Lemma gi_next_back_index it it' o : gi_next_back get it = Ok (it', o) -> gi_index it' = gi_index it.
Proof using.
  unfold gi_next_back. destruct (some_gt _ _); [now intros [= <- _]|].
  destruct (gi_back it); [|discriminate]. destruct (get n) as [[v|]| |]; cbn [bind]; try discriminate; now intros [= <- _].
Qed.
Lemma gi_nth_index it w k it' o : gi_R l it w -> k <= lenN w -> gi_nth get it k = Ok (it', o) ->
  gi_index it' = gi_index it + N.min (k + 1) (lenN w).
Proof using Hget Hgetu Hlen.
  intros R Hk. pose proof (gi_R_len l it w R) as El. destruct R as [I Hw]. pose proof (gi_inv_bound _ _ I) as B.
  pose proof (gi_advance_by_ok (lenN l) it k Hlen I ltac:(lia)) as Ha.
  destruct (N.leb_spec k (gi_rem it)); [|lia]. destruct Ha as (E & I' & Er).
  unfold gi_nth. rewrite E. cbn [bind]. intros H1.
  assert (R' : gi_R l (mkgi (gi_index it + k) (gi_back it)) (dropN k w)).
  { split; auto. rewrite Er, Hw. cbn [gi_index]. unfold sliceN. now rewrite dropN_takeN, dropN_dropN. }
  rewrite (gi_next_index _ _ _ _ R' H1), lenN_dropN. cbn [gi_index]. lia.
Qed.
Lemma gi_nth_back_index it k it' o : gi_nth_back get it k = Ok (it', o) -> gi_index it' = gi_index it.
Proof using.
  unfold gi_nth_back, gi_advance_back_by. destruct (k =? 0); cbn [bind]; [apply gi_next_back_index|].
  destruct (gi_empty it); cbn [bind]; [now intros [= <- _]|].
  destruct (gi_back it); cbn [bind]; [|discriminate]. destruct (sub n (gi_index it)); cbn [bind]; try discriminate.
  destruct (_ <? _); cbn [bind]; [now intros [= <- _]|]. intros E. now rewrite (gi_next_back_index _ _ _ E).
Qed.

Lemma gi_exact ops : forall it w, gi_R l it w ->
  iter_run (gi_step get) it ops = iter_run lazy_step (gi_index it, w) ops.
Proof using Hget Hgetu Hlen.
  induction ops as [|op ops IH]; intros it w R; [reflexivity|]. cbn [iter_run].
  assert (Hback : forall it' w', gi_R l it' w' -> iter_run (gi_step get) it' ops = iter_run lazy_step (gi_index it', w') ops) by exact IH.
  destruct op; cbn [gi_step lazy_step].
  - destruct (gi_next_ok l get getu Hlen Hget Hgetu it w R) as (it' & E & R'). rewrite E. cbn [bind].
    rewrite (Hback _ _ R'). now rewrite (gi_next_index _ _ _ _ R E).
  - destruct (gi_next_back_ok l get getu Hlen Hget Hgetu it w R) as (it' & E & R'). rewrite E. cbn [bind].
    rewrite (Hback _ _ R'). now rewrite (gi_next_back_index _ _ _ E).
  - destruct (N.ltb_spec 0 n) as [H0|H0]; cbn [andb].
    + destruct (N.leb_spec (2 ^ 64) (gi_index it + n)) as [H|H].
      { unfold gi_nth. rewrite gi_advance_by_overflow by (auto; lia). reflexivity. }
      destruct (N.ltb_spec (lenN w) n) as [H1|H1].
      { rewrite (gi_nth_over l get getu Hlen Hget Hgetu it w n R H1 H). cbn [bind]. now rewrite (Hback _ _ R). }
      destruct (gi_nth_ok l get getu Hlen Hget Hgetu it w n R H1) as (it' & E & R'). rewrite E. cbn [bind].
      rewrite (Hback _ _ R'). now rewrite (gi_nth_index _ _ _ _ _ R H1 E).
    + destruct (N.ltb_spec (lenN w) n) as [H1|H1]; [lia|].
      destruct (gi_nth_ok l get getu Hlen Hget Hgetu it w n R H1) as (it' & E & R'). rewrite E. cbn [bind].
      rewrite (Hback _ _ R'). now rewrite (gi_nth_index _ _ _ _ _ R H1 E).
  - destruct (N.ltb_spec (lenN w) n) as [H1|H1].
    + rewrite (gi_nth_back_over l get getu Hlen Hget Hgetu it w n R H1). cbn [bind]. now rewrite (Hback _ _ R).
    + destruct (gi_nth_back_ok l get getu Hlen Hget Hgetu it w n R H1) as (it' & E & R'). rewrite E. cbn [bind].
      rewrite (Hback _ _ R'). now rewrite (gi_nth_back_index _ _ _ _ E).
  - cbn [bind]. rewrite (gi_R_len l it w R), (gi_len_ok (lenN l) it) by (auto; apply R). now rewrite (Hback _ _ R).
Qed.
End Exact.

Theorem C52_bit_vec_iter bv ops :
  wf bv -> lenN (bits bv) < 2 ^ 64 ->
  iter_run (gi_step (bv_get bv)) (gi_new (bv_length bv)) ops = iter_run lazy_step (0, map bitN (bits bv)) ops.
Proof.
  intros H Hl.
  assert (E : bv_length bv = lenN (map bitN (bits bv))) by (rewrite lenN_map, lenN_bits; reflexivity). rewrite E.
  rewrite (gi_exact (map bitN (bits bv)) (bv_get bv) (bv_get_unchecked bv)) with (w := map bitN (bits bv)).
  - f_equal. f_equal. apply gi_new_inv.
  - now rewrite lenN_map.
  - intros. now apply bv_getter.
  - intros. now apply bv_getter_unchecked.
  - apply gi_new_R.
Qed.
Theorem C52_rs_vec_iter bv rs ops :
  wf bv -> rs_from_bit_vec bv = Ok rs -> lenN (bits bv) < 2 ^ 64 ->
  iter_run (gi_step (rs_get rs)) (gi_new (rlen rs)) ops = iter_run lazy_step (0, map bitN (bits bv)) ops.
Proof.
  intros H E0 Hl. pose proof (built bv rs H E0) as G.
  assert (E : rlen rs = lenN (map bitN (bits bv))) by (rewrite lenN_map, lenN_bits; apply (good_len _ _ G)). rewrite E.
  rewrite (gi_exact (map bitN (bits bv)) (rs_get rs) (rs_get_unchecked rs)) with (w := map bitN (bits bv)).
  - f_equal. f_equal. apply gi_new_inv.
  - now rewrite lenN_map.
  - intros. now apply rs_getter.
  - intros. now apply (rs_getter_unchecked bv).
  - apply gi_new_R.
Qed.
Example C52_ex :
  iter_run (gi_step (bv_get ex_bv)) (gi_new (bv_length ex_bv)) [INext; INth 70; ILen; INthBack 69; INext; INextBack] =
    Ok [OItem (Some 0); OItem None; OLen 69; OItem None; OItem None; OItem None] /\
  iter_run (gi_step (bv_get ex_bv)) (gi_new (bv_length ex_bv)) [INth (2 ^ 64 - 1); INthBack (2 ^ 64 - 1); ILen; INext; INth (2 ^ 64 - 1)] = Panic.
Proof. split; vm_compute; reflexivity. Qed.

(** The true part of C20: [nth] with exactly the remaining length exhausts, and any [n] not below
    it returns [None] unless the index addition overflows. *)
Theorem C20_nth_exhausts_partial bv ops n :
  wf bv -> lenN (bits bv) + n < 2 ^ 64 -> lenN (bits bv) <= n ->
  exists l, iter_run (gi_step (bv_get bv)) (gi_new (bv_length bv)) (INth n :: ops) = (let* os := l in Ok (OItem None :: os)) /\
    l = iter_run lazy_step (if n =? lenN (bits bv) then (n, []) else (0, map bitN (bits bv))) ops.
Proof.
  intros H Hl Hn. eexists. split; [|reflexivity]. rewrite C52_bit_vec_iter by (auto; lia). cbn [iter_run lazy_step].
  rewrite lenN_map. destruct (N.ltb_spec 0 n); cbn [andb].
  2:{ assert (n = 0) by lia. subst n. destruct (N.ltb_spec (lenN (bits bv)) 0); [lia|].
      destruct (N.eqb_spec 0 (lenN (bits bv))); [|lia]. cbn [bind]. destruct (bits bv); [reflexivity|].
      rewrite lenN_cons in *. lia. }
  destruct (N.leb_spec (2 ^ 64) (0 + n)); [lia|].
  destruct (N.ltb_spec (lenN (bits bv)) n), (N.eqb_spec n (lenN (bits bv))); try lia; cbn [bind]; auto.
  subst n. rewrite getN_none by (rewrite lenN_map; lia). rewrite dropN_all by (rewrite lenN_map; lia).
  now replace (0 + N.min (lenN (bits bv) + 1) (lenN (bits bv))) with (lenN (bits bv)) by lia.
Qed.
