(** * Property C120: the cost of iterating over the one-bits from the back. *)
From Verif Require Import Base Spec BaseFacts WordFacts BitVecModel BitVecProofs RsVecModel
  PdepProofs RsVecProofs RsVecSelect IterSpec IterFacts RsIterModel RsIterProofs CostModel CostIterModel CostBackModel
  PropsBitVec PropsRsVec PropsCost PropsCostIter PropsCostDrain.

(** The linear steps of the call that yields the bit of rank [r]: none if the bits before and after it lie in the same
    super-block, where the end of the vector stands for the bit after the last; otherwise as many as [select] takes. *)
Definition back_steps (b : bool) (l : list bool) (r : N) : N :=
  let p := select_spec b l r in
  let q := if r + 1 =? count b l then lenN l - 1 else select_spec b l (r + 1) in
  if (0 <? r) && (select_spec b l (r - 1) / 8192 =? q / 8192) then 0
  else p / 8192 - sample_super b l r.

Section One.
Variables (bv : bitvec) (rs : rsvec) (p : N).
Hypothesis Hwf : wf bv.
Hypothesis G : rs_good bv rs.
Hypothesis Hp : p < blen bv.
Local Notation O := (cnt (bit_at (bdata bv))).
Hypothesis Hb : bit_at (bdata bv) p = true.

Lemma back1_gen_hit ss it : it_back it = Some (O p) -> it_rank it <= O p -> it_sbb it < lenN (rsupers rs) ->
  select_next_1_back_gen ss search_block1 rs it =
  if O (8192 * it_sbb it) <? O p then select_next_1_back rs it
  else let* s := ss rs (g1 (rsel rs) (O p / 8192)) (O p) in
    if s =? p / 8192 then select_next_1_back rs it else select_next_1_back_gen (fun _ _ _ => Ok s) search_block1 rs it.
Proof.
  intros Hbk Hle Hs. rewrite <- select_next_1_back_gen_same.
  pose proof (search_super_block1_ok bv rs p Hwf G Hp Hb) as Es.
  unfold select_next_1_back_gen. rewrite Hbk.
  destruct (N.ltb_spec (O p) (it_rank it)); [lia|].
  change SELECT_BLOCK_SIZE with 8192. destruct (sel1_entry bv rs p G Hp Hb) as [Hse _].
  rewrite (idx_ok (0, 0)) by auto. cbn [bind]. fold (g1 (rsel rs) (O p / 8192)).
  rewrite (idx_ok 0) by auto. cbn [bind]. change SUPER_BLOCK_SIZE with 8192.
  rewrite (super_ones bv rs p) by auto. cbn [bind].
  destruct (O (8192 * it_sbb it) <? O p); [reflexivity|].
  rewrite Es. cbn [bind]. destruct (ss rs _ _) as [s| |]; auto. cbn [bind].
  destruct (N.eqb_spec s (p / 8192)) as [->|]; auto.
Qed.

Lemma back1_cost it kb kl : it_back it = Some (O p) -> it_rank it <= O p -> it_sbb it < lenN (rsupers rs) ->
  N.log2_up (lenN (bits bv) / 8192 + 1) <= N.of_nat kb ->
  select_next_1_back_cut kb kl rs it =
  if (O (8192 * it_sbb it) <? O p) || (p / 8192 - sample_super true (bits bv) (O p) <=? N.of_nat kl)
  then select_next_1_back rs it else Diverge.
Proof.
  intros Eb Hle Hs Hkb.
  assert (Hr' : O p < O (blen bv)) by now apply cnt_lt.
  assert (Hr : O p < count true (bits bv)) by now rewrite count_bits_true.
  pose proof (sample_super1_g bv rs _ Hwf G Hr) as Eg.
  destruct (good_sel1 _ _ G _ Hr') as (S1 & S2 & S3 & S4).
  pose proof (bin1_idle bv rs _ kb (g1 (rsel rs) (O p / 8192 + 1)) Hwf G Hr S2 S3) as B.
  pose proof (supers_log bv rs _ kb Hwf G S3 Hkb) as Hl. specialize (B ltac:(clear - Hl; lia)).
  destruct (sel1_entry bv rs p G Hp Hb) as [_ S5].
  unfold select_next_1_back_cut. rewrite back1_gen_hit by auto. rewrite <- Eg.
  destruct (O (8192 * it_sbb it) <? O p); auto. cbn [orb].
  unfold search_super_block1_cut. change SELECT_BLOCK_SIZE with 8192. rewrite (idx_ok (0, 0)) by auto. cbn [bind].
  fold (g1 (rsel rs) (O p / 8192 + 1)). rewrite B. cbn [bind].
  rewrite (lin1_cost bv rs p Hwf G Hp Hb kl _ S5).
  destruct (_ <=? N.of_nat kl); auto. cbn [bind]. now rewrite N.eqb_refl.
Qed.
End One.

Section Back.
Variables (bv : bitvec) (rs : rsvec).
Hypothesis Hwf : wf bv.
Hypothesis G : rs_good bv rs.
Local Notation P := (posz false bv).
Local Notation c := (count true (bits bv)).
Local Notation sel := (select_spec true (bits bv)).
Local Notation O := (cnt (bit_at (bdata bv))).

Lemma len_P : lenN P = c.
Proof. rewrite lenN_posz, count_bits_true. reflexivity. Qed.

Lemma back_state n : N.of_nat n < c -> let r := c - 1 - N.of_nat n in
  exists it it', fresh_back rs n = Ok it /\ it_rank it = 0 /\ it_back it = Some r /\ it_sbb it < lenN (rsupers rs) /\
    it_sbb it = (if r + 1 =? c then lenN (bits bv) - 1 else sel (r + 1)) / 8192 /\
    select_next_1_back rs it = Ok (it', Some (sel r)) /\ fresh_back rs (S n) = Ok it'.
Proof.
  intros Hn. cbn zeta.
  enough (S : exists it, fresh_back rs n = Ok it /\ sel_R false bv rs it (takeN (c - N.of_nat n) P) /\ it_rank it = 0 /\
    it_back it = Some (c - 1 - N.of_nat n) /\
    it_sbb it = (if c - 1 - N.of_nat n + 1 =? c then lenN (bits bv) - 1 else sel (c - 1 - N.of_nat n + 1)) / 8192).
  { destruct S as (it & E & R & Er & Eb & Es). destruct (sel_next_back_ok false bv rs Hwf G it _ R) as (it' & E' & _).
    exists it, it'. split; auto. split; auto. split; auto. 
    split.
    { destruct R as [_ _ _ _ _ R6 _]. apply R6. pose proof (count_bits_true bv) as C.
      destruct (N.eq_dec (blen bv) 0) as [Z|Z]; [rewrite Z, cnt_0 in C; lia|lia]. }
    split; auto.
    assert (X : select_next_1_back rs it = Ok (it', Some (sel (c - 1 - N.of_nat n)))).
    { unfold sel_next_back in E'. rewrite E'. do 2 f_equal. pose proof len_P as LP.
      assert (LT : lenN (takeN (c - N.of_nat n) P) = c - N.of_nat n) by (rewrite lenN_takeN; lia).
      rewrite getN_rev, LT, getN_takeN. destruct (N.ltb_spec 0 (c - N.of_nat n)); [|lia].
      replace (c - N.of_nat n - 1 - 0) with (c - 1 - N.of_nat n) by lia.
      destruct (N.ltb_spec (c - 1 - N.of_nat n) (c - N.of_nat n)); [|lia]. apply (posz_sel false bv). lia. }
    split; auto. unfold fresh_back in *. destruct (sel_new false rs) as [i0| |]; try discriminate. cbn [bind] in *.
    cbn [after_back]. rewrite E. cbn [bind]. now rewrite X. }
  induction n as [|n IH].
  - destruct (sel_new_ok false bv rs Hwf G) as (it & E & R). exists it. unfold fresh_back. rewrite E. split; [reflexivity|].
    cbn [N.of_nat]. rewrite N.sub_0_r, takeN_all by (rewrite len_P; lia). split; auto.
    assert (Hbl : blen bv <> 0).
    { intros Z. pose proof (count_bits_true bv) as C. rewrite Z, cnt_0 in C. lia. }
    unfold sel_new in E. rewrite (good_len _ _ G) in E. destruct (N.eqb_spec (blen bv) 0); [lia|].
    destruct (sub (lenN (rsupers rs)) 1) as [x| |] eqn:Ex; try discriminate. cbn [bind] in E.
    destruct (sub (lenN (rblocks rs)) 1) as [y| |]; try discriminate. cbn [bind] in E.
    rewrite (good_rank1 _ _ G), <- count_bits_true in E. injection E as <-. cbn [it_rank it_back it_sbb].
    destruct (N.ltb_spec 0 c); [|lia]. replace (c - 1 - 0) with (c - 1) by lia. split; auto. split; auto.
    destruct (N.eqb_spec (c - 1 + 1) c); [|lia]. rewrite lenN_bits.
    unfold sub in Ex. destruct (_ <=? _); [|discriminate]. injection Ex as <-. rewrite (good_supers_len _ _ G). destruct Hwf as [-> _]. clear - Hbl. dlia.
  - destruct IH as (it & E & R & Er & Eb & Es); [lia|].
    destruct (sel_next_back_ok false bv rs Hwf G it _ R) as (it' & E' & R').
    set (r := c - 1 - N.of_nat n) in *.
    assert (Hg : getN P r = Some (sel r)) by (apply (posz_sel false bv); rewrite len_P; unfold r; lia).
    pose proof (posz_hit _ _ _ _ Hg) as (Hp & Hf & Hc). unfold fz in Hf, Hc. cbv iota in Hf, Hc.
    destruct R as [R1 R2 R3 R4 R5 R6 R7]. destruct (R6 ltac:(lia)) as (B1 & B2 & B3).
    pose proof (next1_back_with_hit bv rs (sel r) Hwf G Hp Hf _ (search_block1_ok bv rs _ Hwf G Hp Hf) it
      ltac:(now rewrite Hc) ltac:(rewrite Er; apply N.le_0_l) B1 B2 B3 ltac:(apply (R7 _ _ _ Eb Hg); reflexivity)) as X.
    change (select_next_1_back_with search_block1 rs it) with (sel_next_back false rs it) in X. rewrite E' in X.
    exists it'. split.
    { unfold fresh_back in *. destruct (sel_new false rs) as [i0| |]; try discriminate. cbn [bind] in *.
      cbn [after_back]. rewrite E. cbn [bind]. change (select_next_1_back rs it) with (sel_next_back false rs it). now rewrite E'. }
    injection X as -> _. pose proof len_P as LP.
    assert (LT : lenN (takeN (c - N.of_nat n) P) = c - N.of_nat n) by (rewrite lenN_takeN; lia).
    rewrite LT, takeN_takeN in R' by lia. replace (c - N.of_nat n - 1) with (c - N.of_nat (S n)) in R' by lia. split; auto.
    cbn [it_rank it_back it_sbb]. split; auto. rewrite Hc. destruct (N.ltb_spec 0 r); [|unfold r in *; lia].
    replace (c - 1 - N.of_nat (S n)) with (r - 1) by (unfold r; lia). split; auto.
    replace (r - 1 + 1) with r by lia. destruct (N.eqb_spec r c); [unfold r in *; lia|auto].
Qed.

Lemma back_step n kb kl : N.of_nat n < c -> N.log2_up (lenN (bits bv) / 8192 + 1) <= N.of_nat kb ->
  let r := c - 1 - N.of_nat n in
  exists it it', fresh_back rs n = Ok it /\ fresh_back rs (S n) = Ok it' /\
    select_next_1_back rs it = Ok (it', Some (sel r)) /\
    select_next_1_back_cut kb kl rs it =
      if back_steps true (bits bv) r <=? N.of_nat kl then Ok (it', Some (sel r)) else Diverge.
Proof.
  intros Hn Hkb r. destruct (back_state n Hn) as (it & it' & E & Er & Eb & Hs & Es & En & E'). fold r in Eb, Es, En.
  exists it, it'. repeat (split; [auto|]). unfold back_steps. cbn zeta.
  assert (Hr : r < c) by (unfold r; lia). rewrite <- Es.
  set (q := if r + 1 =? c then lenN (bits bv) - 1 else sel (r + 1)) in *.
  destruct (hit1 bv r Hr) as (p & Hp & Hb & Ep & Esel). rewrite Esel in *. rewrite <- Ep in *.
  assert (Hpq : p <= q).
  { unfold q. destruct (N.eqb_spec (r + 1) c); [rewrite lenN_bits; clear - Hp; lia|].
    transitivity (sel r); [rewrite <- Ep, Esel; reflexivity|apply (sel_le true); lia]. }
  rewrite (back1_cost bv rs p Hwf G Hp Hb it kb kl) by (auto; rewrite Er; apply N.le_0_l). rewrite En.
  assert (Ec : (O (8192 * it_sbb it) <? O p) = ((0 <? O p) && (sel (O p - 1) / 8192 =? it_sbb it))).
  { destruct (N.ltb_spec 0 (O p)) as [H0|H0]; cbn [andb].
    - rewrite Ep in H0 |- *. destruct (hit1 bv (r - 1) ltac:(lia)) as (o & Ho & Hbo & Eo & ->).
      assert (Hop : o <= p).
      { apply N.leb_le. rewrite <- (cnt_leb (bit_at (bdata bv))) by auto. apply N.leb_le. lia. }
      pose proof (N.div_le_mono o p 8192 ltac:(discriminate) Hop). pose proof (N.div_le_mono p q 8192 ltac:(discriminate) Hpq).
      destruct (N.ltb_spec (O (8192 * it_sbb it)) r) as [A|A].
      + symmetry. apply N.eqb_eq. assert (B : 8192 * it_sbb it <= o).
        { destruct (N.le_gt_cases (8192 * it_sbb it) o); auto.
          pose proof (cnt_lt (bit_at (bdata bv)) o (8192 * it_sbb it) Hbo ltac:(auto)). lia. }
        rewrite Es in *. clear - B H H1. dlia.
      + symmetry. apply N.eqb_neq. intros B.
        pose proof (cnt_mono (bit_at (bdata bv)) (8192 * it_sbb it) o ltac:(rewrite <- B; clear; dlia)). lia.
    - apply N.ltb_ge. lia. }
  rewrite Ec. destruct (_ && _); cbn [orb]; auto. destruct (N.leb_spec 0 (N.of_nat kl)); [auto|lia].
Qed.
End Back.

(** ** The total *)
Lemma rev_nthN {A} (d : A) l i : i < lenN l -> nthN d (rev l) i = nthN d l (lenN l - 1 - i).
Proof. intros H. unfold nthN, lenN in *. rewrite rev_nth by lia. f_equal. lia. Qed.
Lemma sum_shift f n : sum_to f (S n) = f 0 + sum_to (fun i => f (i + 1)) n.
Proof.
  induction n as [|n IH]; [cbn; lia|]. cbn [sum_to] in IH |- *. replace (N.of_nat (S n)) with (N.of_nat n + 1) by lia. lia.
Qed.
Lemma sum_ext f g n : (forall i, i < N.of_nat n -> f i = g i) -> sum_to f n = sum_to g n.
Proof.
  induction n as [|n IH]; intros H; cbn [sum_to]; [reflexivity|]. rewrite IH, H by (intros; try apply H; lia). reflexivity.
Qed.
Lemma sum_rev f n : sum_to (fun i => f (N.of_nat n - 1 - i)) n = sum_to f n.
Proof.
  induction n as [|n IH]; [reflexivity|]. rewrite sum_shift. cbn [sum_to]. rewrite <- IH, N.add_comm. f_equal.
  - apply sum_ext. intros. f_equal. lia.
  - f_equal. lia.
Qed.
Lemma back_total bv : let c := count true (bits bv) in 0 < c ->
  sum_to (back_steps true (bits bv)) (N.to_nat c) <= select_spec true (bits bv) (c - 1).
Proof.
  intros c H0. set (P := fun r => select_spec true (bits bv) r / 8192).
  assert (Hm : forall a b, a <= b -> b < c -> P a <= P b).
  { intros a b H H'. apply N.div_le_mono; [discriminate|]. now apply sel_le. }
  pose proof (sum_total P _ Hm (N.to_nat c) ltac:(lia) ltac:(lia)) as T. rewrite N2Nat.id in T.
  etransitivity; [|etransitivity; [exact T|unfold P; clear; dlia]].
  apply sum_to_le. intros i Hi. unfold back_steps. cbn zeta. destruct (_ && _); [lia|].
  unfold sample_super, P. destruct (N.ltb_spec i 8192).
  - rewrite (N.div_small i) by auto. cbn [N.eqb]. lia.
  - destruct (N.eqb_spec (i / 8192) 0) as [E|E]; [exfalso; clear - H E; dlia|]. lia.
Qed.

Section Run.
Variables (bv : bitvec) (rs : rsvec) (kb : nat).
Hypothesis Hwf : wf bv.
Hypothesis G : rs_good bv rs.
Hypothesis Hkb : N.log2_up (lenN (bits bv) / 8192 + 1) <= N.of_nat kb.
Local Notation c := (count true (bits bv)).
Local Notation sel := (select_spec true (bits bv)).
Local Notation cost n := (back_steps true (bits bv) (c - 1 - N.of_nat n)).

Fixpoint back_best (n m : nat) : list nat :=
  match m with O => [] | S m => N.to_nat (cost n) :: back_best (S n) m end.
Lemma back_best_run m : forall n it, N.of_nat n + N.of_nat m <= c -> fresh_back rs n = Ok it ->
  iter1_back_cut kb (back_best n m) rs it = Ok (map (fun i => sel (c - 1 - i)) (range (N.of_nat n) (N.of_nat n + N.of_nat m))) /\
  length (back_best n m) = m /\
  total (back_best n m) + sum_to (fun i => back_steps true (bits bv) (c - 1 - i)) n = sum_to (fun i => back_steps true (bits bv) (c - 1 - i)) (n + m).
Proof.
  induction m as [|m IH]; intros n it Hl Ef; cbn [back_best].
  - cbn [iter1_back_cut length total fold_right]. rewrite range_nil by lia. rewrite Nat.add_0_r. repeat split.
  - destruct (back_step bv rs Hwf G n kb (N.to_nat (cost n)) ltac:(lia) Hkb) as (it0 & it' & E0 & E1 & _ & Ec).
    rewrite Ef in E0. injection E0 as <-. cbn [iter1_back_cut]. rewrite Ec, N2Nat.id, N.leb_refl. cbn [bind].
    destruct (IH (S n) it' ltac:(lia) E1) as (I1 & I2 & I3). rewrite I1. cbn [bind]. split; [|split].
    + rewrite (range_cons (N.of_nat n)) by lia. cbn [map]. do 4 f_equal; lia.
    + cbn [length]. now rewrite I2.
    + cbn [total fold_right]. fold (total (back_best (S n) m)). rewrite N2Nat.id.
      replace (n + S m)%nat with (S n + m)%nat by lia. rewrite <- I3. cbn [sum_to]. lia.
Qed.
End Run.

(** ** C120 *)
Theorem C120_back bv rs r kb kl : wf bv -> rs_from_bit_vec bv = Ok rs -> r < count true (bits bv) ->
  N.log2_up (lenN (bits bv) / 8192 + 1) <= N.of_nat kb ->
  exists it it', fresh_back rs (N.to_nat (count true (bits bv) - 1 - r)) = Ok it /\
    select_next_1_back rs it = Ok (it', Some (select_spec true (bits bv) r)) /\
    select_next_1_back_cut kb kl rs it =
      if back_steps true (bits bv) r <=? N.of_nat kl then Ok (it', Some (select_spec true (bits bv) r)) else Diverge.
Proof.
  intros Hwf E Hr Hkb. pose proof (built bv rs Hwf E) as G.
  destruct (back_step bv rs Hwf G (N.to_nat (count true (bits bv) - 1 - r)) kb kl ltac:(lia) Hkb) as (it & it' & E0 & _ & E1 & E2).
  rewrite N2Nat.id in *. replace (count true (bits bv) - 1 - (count true (bits bv) - 1 - r)) with r in * by lia.
  exists it, it'. auto.
Qed.
Theorem C120_total bv rs kb : wf bv -> rs_from_bit_vec bv = Ok rs ->
  N.log2_up (lenN (bits bv) / 8192 + 1) <= N.of_nat kb ->
  exists it ks, sel_new false rs = Ok it /\ lenN ks = count true (bits bv) /\
    iter1_back_cut kb ks rs it = Ok (rev (positions true (bits bv))) /\
    (0 < count true (bits bv) -> total ks <= select_spec true (bits bv) (count true (bits bv) - 1)) /\
    total ks <= lenN (bits bv).
Proof.
  intros Hwf E Hkb. pose proof (built bv rs Hwf E) as G. destruct (sel_new_ok false bv rs Hwf G) as (it & En & _).
  set (c := count true (bits bv)). exists it, (back_best bv 0 (N.to_nat c)).
  destruct (back_best_run bv rs kb Hwf G Hkb (N.to_nat c) 0 it) as (B1 & B2 & B3).
  { unfold c; lia. } { unfold fresh_back. rewrite En. reflexivity. }
  fold c in B1, B3. cbn [Nat.add sum_to] in B3. rewrite N.add_0_r in B3.
  assert (B4 : total (back_best bv 0 (N.to_nat c)) = sum_to (back_steps true (bits bv)) (N.to_nat c)).
  { rewrite B3. rewrite <- (sum_rev (back_steps true (bits bv))). now rewrite N2Nat.id. }
  assert (T : 0 < c -> total (back_best bv 0 (N.to_nat c)) <= select_spec true (bits bv) (c - 1)).
  { intros H0. rewrite B4. now apply back_total. }
  split; auto. split; [unfold lenN; rewrite B2; apply N2Nat.id|]. split; [|split; auto].
  - rewrite B1, <- (sels_positions bv). fold c. f_equal. rewrite N2Nat.id, N.add_0_l. cbn [N.of_nat].
    apply (list_ext 0).
    + rewrite lenN_rev, !lenN_map, !lenN_range. reflexivity.
    + intros i Hi. rewrite lenN_map, lenN_range, N.sub_0_r in Hi.
      rewrite (nthN_map _ 0), nthN_range by (rewrite ?lenN_range; lia).
      rewrite rev_nthN by (rewrite lenN_map, lenN_range; lia). rewrite lenN_map, lenN_range.
      rewrite (nthN_map _ 0), nthN_range by (rewrite ?lenN_range; lia). f_equal. lia.
  - destruct (N.eq_dec c 0) as [Z|Z]; [rewrite B4, Z; cbn; lia|].
    specialize (T ltac:(lia)). destruct (hit1 bv (c - 1) ltac:(unfold c in *; lia)) as (p & P1 & _ & _ & P4).
    rewrite P4 in T. rewrite lenN_bits. lia.
Qed.

(** Three super-blocks with a one-bit at their starts: every call of [next_back] searches from the first super-block. *)
Example C120_ex : match rs_from_bit_vec (comb_vec 3) with
  | Ok rs => match sel_new false rs with
    | Ok it => iter1_back_cut 2 [2; 1; 0]%nat rs it = Ok [16384; 8192; 0] /\ iter1_back_cut 2 [2; 0; 1]%nat rs it = Diverge
    | _ => False end
  | _ => False
  end.
Proof. vm_compute. auto. Qed.
