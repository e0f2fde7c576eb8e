(** * How many iterations a call of [next] on a select iterator takes. *)
From Verif Require Import Base Spec BaseFacts WordFacts BitVecModel BitVecProofs RsVecModel
  PdepProofs RsVecProofs RsVecSelect IterSpec IterFacts RsIterModel RsIterProofs CostModel CostIterModel
  PropsBitVec PropsRsVec PropsCost.

(** The linear steps of the call that yields the bit of rank [r]: none if it lies in the super-block of
    the bit before it and that is not the last super-block, and otherwise as many as [select] takes. *)
Definition next_steps (b : bool) (l : list bool) (r : N) : N :=
  let p := select_spec b l r in
  let q := if r =? 0 then 0 else select_spec b l (r - 1) in
  if (p / 8192 =? q / 8192) && (8192 * (q / 8192 + 1) <? lenN l) then 0
  else p / 8192 - sample_super b l r.

(** ** The super-block search decides the outcome *)
Section Zero.
Variables (bv : bitvec) (rs : rsvec) (p : N).
Hypothesis Hwf : wf bv.
Hypothesis G : rs_good bv rs.
Hypothesis Hp : p < blen bv.
Local Notation Z := (cnt (zbit (bdata bv))).
Hypothesis Hb : zbit (bdata bv) p = true.

Lemma next0_gen_hit ss it b : it_rank it = Z p -> it_back it = Some b -> it_rank it <= b ->
  select_next_0_gen ss search_block0 rs it =
  if (it_sb it + 1 <? lenN (rsupers rs)) && (p / 8192 <? it_sb it + 1) then select_next_0 rs it
  else let* s := ss rs (g0 (rsel rs) (Z p / 8192)) (Z p) in
    if s =? p / 8192 then select_next_0 rs it else select_next_0_gen (fun _ _ _ => Ok s) search_block0 rs it.
Proof.
  intros Hr Hbk Hle. rewrite <- select_next_0_gen_same.
  pose proof (search_super_block0_ok bv rs p Hwf G Hp Hb) as Es.
  assert (Hrk : Z p < Z (blen bv)) by now apply cnt_lt.
  unfold select_next_0_gen. rewrite (good_rank0 _ _ G), Hbk, Hr in *.
  destruct (N.leb_spec (Z (blen bv)) (Z p)); [lia|]. destruct (N.ltb_spec b (Z p)); [lia|]. cbn [orb].
  change SELECT_BLOCK_SIZE with 8192. destruct (sel0_entry bv rs p G Hp Hb) as [Hse _].
  rewrite (idx_ok (0, 0)) by auto. cbn [bind]. fold (g0 (rsel rs) (Z p / 8192)).
  match goal with |- context [bind (if ?c then ?a else Ok false) _] => set (go := if c then a else Ok false) end.
  assert (Ego : go = Ok ((it_sb it + 1 <? lenN (rsupers rs)) && (p / 8192 <? it_sb it + 1))).
  { unfold go. destruct (N.ltb_spec (it_sb it + 1) (lenN (rsupers rs))); auto.
    rewrite (idx_ok 0) by auto. cbn [bind andb]. f_equal. rewrite !(N.ltb_antisym).
    now rewrite (super0_cmp bv rs p) by auto. }
  rewrite Ego. clear go Ego. cbn [bind]. destruct (_ && _) eqn:Ec.
  - reflexivity.
  - rewrite Es. cbn [bind]. destruct (ss rs _ _) as [s| |]; auto. cbn [bind].
    destruct (N.eqb_spec s (p / 8192)) as [->|]; auto.
Qed.
End Zero.

Section One.
Variables (bv : bitvec) (rs : rsvec) (p : N).
Hypothesis Hwf : wf bv.
Hypothesis G : rs_good bv rs.
Hypothesis Hp : p < blen bv.
Local Notation O := (cnt (bit_at (bdata bv))).
Hypothesis Hb : bit_at (bdata bv) p = true.

Lemma next1_gen_hit ss it b : it_rank it = O p -> it_back it = Some b -> it_rank it <= b ->
  select_next_1_gen ss search_block1 rs it =
  if (it_sb it + 1 <? lenN (rsupers rs)) && (p / 8192 <? it_sb it + 1) then select_next_1 rs it
  else let* s := ss rs (g1 (rsel rs) (O p / 8192)) (O p) in
    if s =? p / 8192 then select_next_1 rs it else select_next_1_gen (fun _ _ _ => Ok s) search_block1 rs it.
Proof.
  intros Hr Hbk Hle. rewrite <- select_next_1_gen_same.
  pose proof (search_super_block1_ok bv rs p Hwf G Hp Hb) as Es.
  assert (Hrk : O p < O (blen bv)) by now apply cnt_lt.
  unfold select_next_1_gen. rewrite (good_rank1 _ _ G), Hbk, Hr in *.
  destruct (N.leb_spec (O (blen bv)) (O p)); [lia|]. destruct (N.ltb_spec b (O p)); [lia|]. cbn [orb].
  change SELECT_BLOCK_SIZE with 8192. destruct (sel1_entry bv rs p G Hp Hb) as [Hse _].
  rewrite (idx_ok (0, 0)) by auto. cbn [bind]. fold (g1 (rsel rs) (O p / 8192)).
  match goal with |- context [bind (if ?c then ?a else Ok false) _] => set (go := if c then a else Ok false) end.
  assert (Ego : go = Ok ((it_sb it + 1 <? lenN (rsupers rs)) && (p / 8192 <? it_sb it + 1))).
  { unfold go. change SUPER_BLOCK_SIZE with 8192. destruct (N.ltb_spec (it_sb it + 1) (lenN (rsupers rs))); auto.
    rewrite (idx_ok 0) by auto. cbn [bind andb]. rewrite (super_ones bv rs p) by auto. cbn [bind]. f_equal. rewrite !(N.ltb_antisym).
    now rewrite (super1_cmp bv p) by auto. }
  rewrite Ego. clear go Ego. cbn [bind]. destruct (_ && _) eqn:Ec.
  - reflexivity.
  - rewrite Es. cbn [bind]. destruct (ss rs _ _) as [s| |]; auto. cbn [bind].
    destruct (N.eqb_spec s (p / 8192)) as [->|]; auto.
Qed.
End One.

(** ** The state after [n] calls *)
Section State.
Variables (zero : bool) (bv : bitvec) (rs : rsvec).
Hypothesis Hwf : wf bv.
Hypothesis G : rs_good bv rs.
Local Notation P := (posz zero bv).
Local Notation sel := (select_spec (negb zero) (bits bv)).

Lemma posz_sel k : k < lenN P -> getN P k = Some (sel k).
Proof.
  intros H. rewrite (getN_ok 0) by auto. f_equal.
  pose proof (posz_hit zero bv k _ (getN_ok 0 _ _ H)) as (Hq & Hf & Hc).
  assert (Eb : bit_at (bdata bv) (nthN 0 P k) = negb zero).
  { unfold fz, zbit in Hf. destruct zero; cbn; auto. now destruct (bit_at _ _). }
  pose proof (bits_select_hit (negb zero) bv _ Hq Eb) as E.
  rewrite <- E. unfold fz in Hc. destruct zero; cbn [negb] in *; now rewrite Hc.
Qed.

Lemma after_add it n : after_next zero rs (S n) it = let* it := after_next zero rs n it in
  let* '(it, _) := sel_next zero rs it in Ok it.
Proof.
  revert it. induction n as [|n IH]; intros it.
  - cbn [after_next bind]. destruct (sel_next zero rs it) as [[? ?]| |]; auto.
  - cbn [after_next] in IH |- *. destruct (sel_next zero rs it) as [[it1 o]| |]; auto. cbn [bind]. apply IH.
Qed.

Lemma fresh_state n : N.of_nat n < lenN P ->
  exists it, fresh_after zero rs n = Ok it /\ sel_R zero bv rs it (dropN (N.of_nat n) P) /\
    it_rank it = N.of_nat n /\ it_back it = Some (lenN P - 1) /\
    it_sb it = (if N.of_nat n =? 0 then 0 else sel (N.of_nat n - 1)) / 8192.
Proof.
  unfold fresh_after. destruct (sel_new_ok zero bv rs Hwf G) as (it0 & E0 & R0). rewrite E0. cbn [bind].
  induction n as [|n IH]; intros H.
  - exists it0. split; [reflexivity|]. cbn [N.of_nat]. rewrite dropN_0. split; auto.
    assert (blen bv <> 0).
    { intros B. rewrite lenN_posz, B, cnt_0 in H. lia. }
    unfold sel_new in E0. rewrite (good_len _ _ G) in E0. destruct (N.eqb_spec (blen bv) 0); [lia|].
    destruct (sub (lenN (rsupers rs)) 1) as [x| |]; try discriminate. cbn [bind] in E0.
    destruct (sub (lenN (rblocks rs)) 1) as [y| |]; try discriminate. cbn [bind] in E0.
    assert (Hx : (if zero then rrank0 rs else rrank1 rs) = lenN P).
    { rewrite lenN_posz. unfold fz. destruct zero; [apply (good_rank0 _ _ G)|apply (good_rank1 _ _ G)]. }
    rewrite Hx in E0. injection E0 as <-. cbn [it_rank it_back it_sb]. destruct (N.ltb_spec 0 (lenN P)); [auto|lia].
  - destruct IH as (it & E & R & Er & Eb & Es); [lia|]. rewrite after_add, E. cbn [bind].
    destruct (sel_next_ok zero bv rs Hwf G it _ R) as (it' & E' & R').
    pose proof E' as E''. rewrite getN_dropN, N.add_0_r, posz_sel in E'' by lia.
    rewrite E'. cbn [bind]. exists it'. split; [reflexivity|]. rewrite dropN_dropN in R'.
    replace (N.of_nat n + 1) with (N.of_nat (S n)) in R' by lia. split; auto.
    replace (N.of_nat (S n) - 1) with (N.of_nat n) by lia. destruct (N.eqb_spec (N.of_nat (S n)) 0); [lia|].
    pose proof (posz_sel (N.of_nat n) ltac:(lia)) as Hg. pose proof (posz_hit _ _ _ _ Hg) as (Hp & Hf & Hc).
    destruct R as [R1 R2 R3 R4 R5 R6 R7].
    assert (X : sel_next zero rs it = Ok (mkit (it_rank it + 1) (it_back it) (sel (N.of_nat n) / 8192) (it_sbb it)
      (sel (N.of_nat n) / 512) (it_bb it), Some (sel (N.of_nat n)))).
    { assert (512 * it_b it <= sel (N.of_nat n)) by (apply (R5 (N.of_nat n)); auto; lia).
      unfold sel_next, fz in *. set (p := sel (N.of_nat n)) in *. destruct zero.
      - apply (next0_with_hit bv rs p Hwf G Hp Hf _ (search_block0_ok bv rs p Hwf G Hp Hf) it (lenN (posz true bv) - 1)); auto; lia.
      - apply (next1_with_hit bv rs p Hwf G Hp Hf _ (search_block1_ok bv rs p Hwf G Hp Hf) it (lenN (posz false bv) - 1)); auto; lia. }
    rewrite X in E''. injection E'' as <-. cbn [it_rank it_back it_sb]. repeat split; auto. lia.
Qed.
End State.

Lemma supers_in bv rs s : wf bv -> rs_good bv rs -> (s + 1 <? lenN (rsupers rs)) = (8192 * (s + 1) <? lenN (bits bv)).
Proof.
  intros Hwf G. rewrite (good_supers_len _ _ G), lenN_bits. destruct Hwf as [-> _].
  destruct (N.ltb_spec (8192 * (s + 1)) (blen bv)); [apply N.ltb_lt|apply N.ltb_ge]; dlia.
Qed.

Lemma sel_mono b bv r : r < count b (bits bv) ->
  (if r =? 0 then 0 else select_spec b (bits bv) (r - 1)) <= select_spec b (bits bv) r.
Proof.
  intros H. destruct (N.eqb_spec r 0); [lia|]. destruct b.
  - destruct (hit1 bv r H) as (p & P1 & P2 & P3 & ->). destruct (hit1 bv (r - 1) ltac:(lia)) as (q & Q1 & Q2 & Q3 & ->).
    apply N.leb_le. rewrite <- (cnt_leb (bit_at (bdata bv))) by auto. apply N.leb_le. lia.
  - destruct (hit0 bv r H) as (p & P1 & P2 & P3 & ->). destruct (hit0 bv (r - 1) ltac:(lia)) as (q & Q1 & Q2 & Q3 & ->).
    apply N.leb_le. rewrite <- (cnt_leb (zbit (bdata bv))) by auto. apply N.leb_le. lia.
Qed.
Lemma cached_eq a b c : b / 8192 <= a / 8192 -> (c && (a / 8192 <? b / 8192 + 1)) = ((a / 8192 =? b / 8192) && c).
Proof.
  intros H. destruct (N.ltb_spec (a / 8192) (b / 8192 + 1)), (N.eqb_spec (a / 8192) (b / 8192)); try lia; destruct c; auto.
Qed.

(** A call with the one-bit [p] next, in any state. *)
Lemma next1_cost bv rs it p b kb kl : wf bv -> rs_good bv rs -> p < blen bv -> bit_at (bdata bv) p = true ->
  it_rank it = cnt (bit_at (bdata bv)) p -> it_back it = Some b -> it_rank it <= b ->
  N.log2_up (lenN (bits bv) / 8192 + 1) <= N.of_nat kb ->
  select_next_1_cut kb kl rs it =
  if (8192 * (it_sb it + 1) <? lenN (bits bv)) && (p / 8192 <? it_sb it + 1) then select_next_1 rs it
  else if p / 8192 - sample_super true (bits bv) (it_rank it) <=? N.of_nat kl then select_next_1 rs it else Diverge.
Proof.
  intros Hwf G Hp Hb Er Eb Hle Hkb.
  assert (Hr' : it_rank it < cnt (bit_at (bdata bv)) (blen bv)) by (rewrite Er; now apply cnt_lt).
  assert (Hr : it_rank it < count true (bits bv)) by now rewrite count_bits_true.
  pose proof (sample_super1_g bv rs _ Hwf G Hr) as Eg.
  destruct (good_sel1 _ _ G _ Hr') as (S1 & S2 & S3 & S4).
  pose proof (bin1_idle bv rs _ kb (g1 (rsel rs) (it_rank it / 8192 + 1)) Hwf G Hr S2 S3) as B.
  pose proof (supers_log bv rs _ kb Hwf G S3 Hkb) as Hl. specialize (B ltac:(clear - Hl; lia)).
  destruct (sel1_entry bv rs p G Hp Hb) as [_ S5].
  unfold select_next_1_cut. rewrite (next1_gen_hit bv rs p Hwf G Hp Hb _ it b) by auto.
  rewrite (supers_in bv rs) by auto. rewrite <- Eg, Er in *.
  destruct (_ && _); auto.
  unfold search_super_block1_cut. change SELECT_BLOCK_SIZE with 8192. rewrite (idx_ok (0, 0)) by auto. cbn [bind].
  fold (g1 (rsel rs) (cnt (bit_at (bdata bv)) p / 8192 + 1)). rewrite B. cbn [bind].
  rewrite (lin1_cost bv rs p Hwf G Hp Hb kl _ S5).
  destruct (_ <=? N.of_nat kl); auto. cbn [bind]. now rewrite N.eqb_refl.
Qed.
Lemma iter1_cost bv rs r kb kl : wf bv -> rs_good bv rs -> r < count true (bits bv) ->
  N.log2_up (lenN (bits bv) / 8192 + 1) <= N.of_nat kb ->
  exists it it', fresh_after false rs (N.to_nat r) = Ok it /\
    select_next_1 rs it = Ok (it', Some (select_spec true (bits bv) r)) /\
    select_next_1_cut kb kl rs it =
      if next_steps true (bits bv) r <=? N.of_nat kl then Ok (it', Some (select_spec true (bits bv) r)) else Diverge.
Proof.
  intros Hwf G Hr Hkb.
  assert (HP : lenN (posz false bv) = count true (bits bv)) by (rewrite lenN_posz, count_bits_true; reflexivity).
  destruct (fresh_state false bv rs Hwf G (N.to_nat r)) as (it & Ef & R & Er & Eb & Es); [lia|].
  rewrite N2Nat.id in *. cbn [negb] in Es. exists it.
  destruct (sel_next_ok false bv rs Hwf G it _ R) as (it' & En & _). exists it'. split; auto.
  rewrite getN_dropN, N.add_0_r, posz_sel in En by lia. cbn [negb sel_next] in En. split; auto.
  pose proof (sel_mono true bv r Hr) as Hm. unfold next_steps. rewrite HP in Eb.
  assert (Hc : r <= count true (bits bv) - 1) by (clear - Hr; lia).
  destruct (hit1 bv r Hr) as (p & Hp & Hb & Ep & Esel). rewrite Esel in *.
  rewrite (next1_cost bv rs it p (count true (bits bv) - 1) kb kl) by (auto; congruence).
  set (q := if r =? 0 then 0 else _) in *. rewrite Es, Er.
  rewrite cached_eq by (apply N.div_le_mono; [discriminate|auto]).
  destruct (_ && _).
  - destruct (N.leb_spec 0 (N.of_nat kl)); [exact En|lia].
  - destruct (_ <=? N.of_nat kl); auto.
Qed.

(** ** C116 *)
Theorem C116_iter1 bv rs r kb kl : wf bv -> rs_from_bit_vec bv = Ok rs -> r < count true (bits bv) ->
  N.log2_up (lenN (bits bv) / 8192 + 1) <= N.of_nat kb ->
  exists it it', fresh_after false rs (N.to_nat r) = Ok it /\
    select_next_1 rs it = Ok (it', Some (select_spec true (bits bv) r)) /\
    select_next_1_cut kb kl rs it =
      if next_steps true (bits bv) r <=? N.of_nat kl then Ok (it', Some (select_spec true (bits bv) r)) else Diverge.
Proof. intros Hwf E. apply iter1_cost; auto. now apply built. Qed.

Theorem C116_iter0 bv rs r : wf bv -> rs_from_bit_vec bv = Ok rs -> r < count false (bits bv) ->
  exists it it', fresh_after true rs (N.to_nat r) = Ok it /\
    select_next_0 rs it = Ok (it', Some (select_spec false (bits bv) r)) /\
    (r / 8192 < count false (bits bv) / 8192 ->
       select_next_0_cut (N.to_nat (N.log2_up (lenN (bits bv) / 8192 + 1))) 8 rs it = Ok (it', Some (select_spec false (bits bv) r))) /\
    (r / 8192 = count false (bits bv) / 8192 -> forall kb kl,
       select_next_0_cut kb kl rs it =
         if next_steps false (bits bv) r <=? N.of_nat kl then Ok (it', Some (select_spec false (bits bv) r)) else Diverge).
Proof.
  intros Hwf E Hr. pose proof (built bv rs Hwf E) as G.
  assert (HP : lenN (posz true bv) = count false (bits bv)) by (rewrite lenN_posz, count_bits_false; reflexivity).
  destruct (fresh_state true bv rs Hwf G (N.to_nat r)) as (it & Ef & R & Er & Eb & Es); [lia|].
  rewrite N2Nat.id in *. cbn [negb] in Es. exists it.
  destruct (sel_next_ok true bv rs Hwf G it _ R) as (it' & En & _). exists it'. split; auto.
  rewrite getN_dropN, N.add_0_r, posz_sel in En by lia. cbn [negb sel_next] in En. split; auto.
  pose proof (sample_super0_g bv rs r Hwf G Hr) as Eg.
  pose proof Hr as Hr'. rewrite count_bits_false in Hr'.
  destruct (good_sel0 _ _ G _ Hr') as (S1 & S2 & S3 & S4).
  pose proof (sel_mono false bv r Hr) as Hm. unfold next_steps. rewrite HP in Eb.
  assert (Hc : r <= count false (bits bv) - 1) by (clear - Hr; lia).
  pose proof (count_bits_false bv) as Ct.
  destruct (hit0 bv r Hr) as (p & Hp & Hb & Ep & Esel). rewrite Esel in *.
  destruct (sel0_entry bv rs p G Hp Hb) as [_ S5]. rewrite Ep in S5.
  set (q := if r =? 0 then 0 else _) in *.
  split; [intros Hl|intros Hl kb kl]; unfold select_next_0_cut;
    rewrite (next0_gen_hit bv rs p Hwf G Hp Hb _ it (count false (bits bv) - 1)) by (auto; congruence);
    rewrite Es, (supers_in bv rs) by auto;
    rewrite cached_eq by (apply N.div_le_mono; [discriminate|auto]); rewrite Ep.
  - destruct (_ && _); [exact En|].
    unfold search_super_block0_cut. change SELECT_BLOCK_SIZE with 8192. rewrite (idx_ok (0, 0)) by auto. cbn [bind].
    fold (g0 (rsel rs) (r / 8192 + 1)).
    pose proof (next0 bv rs p Hwf G) as N0. rewrite Ep, <- Ct in N0.
    pose proof (supers_log bv rs _ (N.to_nat (N.log2_up (lenN (bits bv) / 8192 + 1))) Hwf G S3 ltac:(rewrite N2Nat.id; reflexivity)) as K.
    destruct (bin0_cost bv rs p G Hp Hb (N.to_nat (N.log2_up (lenN (bits bv) / 8192 + 1)))
      (g0 (rsel rs) (r / 8192)) (g0 (rsel rs) (r / 8192 + 1))) as (sb' & B & B1 & B2); auto.
    + clear - K. lia.
    + rewrite Ep in B. rewrite B. cbn [bind].
      pose proof (lin0_cost bv rs p Hwf G Hp Hb 8 _ B1) as L. rewrite Ep in L. rewrite L.
      destruct (N.leb_spec (p / 8192 - sb') (N.of_nat 8)); [|clear - B2 H; lia]. cbn [bind]. rewrite N.eqb_refl. exact En.
  - rewrite <- Eg. destruct (_ && _).
    + destruct (N.leb_spec 0 (N.of_nat kl)); [exact En|lia].
    + unfold search_super_block0_cut. change SELECT_BLOCK_SIZE with 8192. rewrite (idx_ok (0, 0)) by auto. cbn [bind].
      fold (g0 (rsel rs) (r / 8192 + 1)).
      pose proof (good_dummy0 _ _ G) as D. rewrite (zc_all bv Hwf), <- Ct, <- Hl in D. rewrite D.
      assert (B : search_super0_bin kb rs r (g0 (rsel rs) (r / 8192)) (g0 (rsel rs) (r / 8192)) = Ok (g0 (rsel rs) (r / 8192))).
      { destruct kb; cbn [search_super0_bin]; rewrite sub_ok by reflexivity; cbn [bind]; now rewrite N.sub_diag. }
      rewrite B. cbn [bind].
      pose proof (lin0_cost bv rs p Hwf G Hp Hb kl _ S5) as L. rewrite Ep in L. rewrite L.
      destruct (_ <=? N.of_nat kl); auto. cbn [bind]. rewrite N.eqb_refl. exact En.
Qed.

(** The iterator never takes more steps than a call of [select]. *)
Theorem C116_no_worse bv rs r kb kl : wf bv -> rs_from_bit_vec bv = Ok rs -> r < count true (bits bv) ->
  N.log2_up (lenN (bits bv) / 8192 + 1) <= N.of_nat kb ->
  rs_select1_cut kb kl rs r = Ok (select_spec true (bits bv) r) ->
  exists it it', fresh_after false rs (N.to_nat r) = Ok it /\
    select_next_1_cut kb kl rs it = Ok (it', Some (select_spec true (bits bv) r)).
Proof.
  intros Hwf E Hr Hkb Hs. destruct (C116_iter1 bv rs r kb kl Hwf E Hr Hkb) as (it & it' & Ef & _ & En).
  exists it, it'. split; auto. rewrite En. rewrite (C91_select1 bv) in Hs by auto.
  unfold next_steps. cbn zeta. destruct (_ && _).
  - destruct (N.leb_spec 0 (N.of_nat kl)); [auto|lia].
  - destruct (_ <=? _); [auto|discriminate].
Qed.

Lemma next1_cut_mono a b kl rs it v : (a <= b)%nat -> select_next_1_cut a kl rs it = Ok v -> select_next_1_cut b kl rs it = Ok v.
Proof.
  intros H. unfold select_next_1_cut, select_next_1_gen. destruct (_ || _); auto.
  destruct (idx (rsel rs) (it_rank it / SELECT_BLOCK_SIZE)) as [e| |]; try discriminate. cbn [bind].
  match goal with |- bind (if ?c then ?x else Ok false) _ = _ -> _ => destruct (if c then x else Ok false) as [go| |]; try discriminate end.
  cbn [bind]. destruct go; auto. unfold search_super_block1_cut.
  destruct (idx (rsel rs) (it_rank it / SELECT_BLOCK_SIZE + 1)) as [e'| |]; try discriminate. cbn [bind].
  destruct (search_super1_bin a rs (it_rank it) (snd e) (snd e')) as [sb| |] eqn:E; try discriminate.
  now rewrite (bin1_mono a rs (it_rank it) b (snd e) (snd e') sb H E).
Qed.

(** Even for a bit in the same block as the bit before it. *)
Theorem C116_refuted : ~ exists c, forall bv rs r it, wf bv -> rs_from_bit_vec bv = Ok rs ->
  r + 1 < count true (bits bv) ->
  select_spec true (bits bv) r / 512 = select_spec true (bits bv) (r + 1) / 512 ->
  fresh_after false rs (N.to_nat (r + 1)) = Ok it ->
  let k := N.to_nat (c * (N.log2 (lenN (bits bv)) + 1)) in exists v, select_next_1_cut k k rs it = Ok v.
Proof.
  intros (c & H). set (e := c + 8). set (m := 2 ^ e). set (bv := step_vec 0 (2 ^ 64 - 1) m 1).
  assert (Hwf : wf bv) by (apply step_vec_wf; reflexivity).
  assert (Hm : m <> 0) by (apply N.pow_nonzero; lia).
  assert (Bl : forall i, i < 8192 * m -> bit_at (bdata bv) i = false).
  { intros i Hi. unfold bv. rewrite step_vec_bit by lia. destruct (N.ltb_spec i (8192 * m)); [apply N.bits_0|lia]. }
  assert (Bh : forall i, 8192 * m <= i -> i < 8192 * m + 64 -> bit_at (bdata bv) i = true).
  { intros i Hi Hi'. unfold bv. rewrite step_vec_bit by lia. destruct (N.ltb_spec i (8192 * m)); [lia|apply ones64]. }
  assert (Z0 : cnt (bit_at (bdata bv)) (8192 * m) = 0).
  { rewrite (cnt_ext _ (fun _ => false)); [apply cnt_false|]. intros i Hi. now rewrite Bl. }
  assert (Ln : blen bv = 8192 * m + 64) by (unfold bv; cbn [blen step_vec]; lia).
  assert (Zn : count true (bits bv) = 64).
  { rewrite count_bits_true, Ln, cnt_add, Z0. rewrite (cnt_ext _ (fun _ => true)); [now rewrite cnt_true|].
    intros i Hi. now rewrite Bh by lia. }
  destruct (rs_from_bit_vec_ok bv Hwf) as (rs & E & _).
  assert (Sel0 : select_spec true (bits bv) 0 = 8192 * m).
  { pose proof (bits_select_hit true bv (8192 * m) ltac:(lia) (Bh (8192 * m) ltac:(lia) ltac:(lia))) as S. cbv iota in S. now rewrite Z0 in S. }
  assert (Sel1 : select_spec true (bits bv) 1 = 8192 * m + 1).
  { pose proof (bits_select_hit true bv (8192 * m + 1) ltac:(lia) (Bh (8192 * m + 1) ltac:(lia) ltac:(lia))) as S. cbv iota in S.
    rewrite cnt_succ, Z0, Bh in S by lia. exact S. }
  assert (H1 : 1 < count true (bits bv)) by (rewrite Zn; lia).
  set (k := N.to_nat (c * (N.log2 (lenN (bits bv)) + 1))).
  set (kb := Nat.max k (N.to_nat (N.log2_up (lenN (bits bv) / 8192 + 1)))).
  destruct (C116_iter1 bv rs 1 kb k Hwf E H1 ltac:(unfold kb; lia)) as (it & it' & Ef & _ & En).
  destruct (H bv rs 0 it Hwf E H1) as (v & Hv); auto.
  { change (0 + 1) with 1. rewrite Sel0, Sel1. clear - Hm. dlia. }
  fold k in Hv. apply (next1_cut_mono k kb k) in Hv; [|unfold kb; lia]. rewrite En in Hv. clear En.
  unfold next_steps in Hv. change (1 =? 0) with false in Hv. change (1 - 1) with 0 in Hv. cbv iota zeta in Hv.
  rewrite Sel0, Sel1, lenN_bits, Ln in Hv. unfold sample_super in Hv. change (1 <? 8192) with true in Hv. cbv iota in Hv.
  replace (8192 * m / 8192) with m in Hv by (clear; dlia). replace ((8192 * m + 1) / 8192) with m in Hv by (clear; dlia).
  destruct (N.ltb_spec (8192 * (m + 1)) (8192 * m + 64)); [lia|]. rewrite andb_false_r, N.sub_0_r in Hv.
  unfold k in Hv. rewrite N2Nat.id, lenN_bits in Hv.
  destruct (N.leb_spec m (c * (N.log2 (blen bv) + 1))) as [L|L]; [|discriminate].
  pose proof (log_lt1 c) as P. cbn zeta in P. fold e m in P. rewrite Ln in L.
  replace (64 * (128 * m + 1)) with (8192 * m + 64) in P by lia. lia.
Qed.

(** Two super-blocks with one bit set, at the end of the second, then a word of ones: the second one starts again from
    the first super-block, and so does the third although it is next to the second. *)
Example C116_ex : let bv := mkbv (replicate 255 0 ++ [2 ^ 63; 2 ^ 64 - 1]) (64 * 257) in
  match rs_from_bit_vec bv with
  | Ok rs => match fresh_after false rs 1, fresh_after false rs 2 with
    | Ok i1, Ok i2 =>
        select_next_1_cut 2 1 rs i1 = Diverge /\ select_next_1_cut 2 2 rs i1 = Ok (mkit 2 (Some 64) 2 2 32 32, Some 16384) /\
        select_next_1_cut 2 1 rs i2 = Diverge /\ select_next_1_cut 2 2 rs i2 = Ok (mkit 3 (Some 64) 2 2 32 32, Some 16385)
    | _, _ => False end
  | _ => False
  end.
Proof. vm_compute. repeat split; reflexivity. Qed.
(** The same with the bits flipped, and a cached super-block at the start. *)
Example C116_ex0 : let bv := mkbv (2 ^ 64 - 8 :: replicate 255 (2 ^ 64 - 1) ++ [2 ^ 63]) (64 * 257) in
  match rs_from_bit_vec bv with
  | Ok rs => match fresh_after true rs 2, fresh_after true rs 4 with
    | Ok i1, Ok i2 =>
        select_next_0_cut 2 0 rs i1 = Ok (mkit 3 (Some 65) 0 2 0 32, Some 2) /\
        select_next_0_cut 2 1 rs i2 = Diverge /\ select_next_0_cut 2 2 rs i2 = Ok (mkit 5 (Some 65) 2 2 32 32, Some 16385)
    | _, _ => False end
  | _ => False
  end.
Proof. vm_compute. repeat split; reflexivity. Qed.
