(** * Properties C50 and C67: the AVX-512 bit set iterator. *)
From Verif Require Import Base Spec BaseFacts WordFacts BitVecModel BitVecProofs PropsBitVec
  RsVecModel RsVecProofs RsVecSelect RsEqProofs PropsRsVec RsIterModel RsIterProofs IterSpec IterFacts BitSetModel.

Lemma filter_cnt f b : lenN (filter f (range 0 b)) = cnt f b.
Proof.
  induction b as [|b IH] using N_ind1; [reflexivity|]. rewrite range_snoc by lia. rewrite N.add_sub, filter_app, lenN_app, IH, cnt_succ. cbn [filter]. destruct (f b); reflexivity.
Qed.
Lemma filter_map_shift (f : N -> bool) b n : filter f (range b (b + n)) = map (N.add b) (filter (fun i => f (b + i)) (range 0 n)).
Proof.
  induction n as [|n IH] using N_ind1; [rewrite range_nil by lia; reflexivity|]. rewrite (range_snoc b) by lia. rewrite (range_snoc 0) by lia. rewrite !N.add_sub. replace (b + (n + 1) - 1) with (b + n) by lia.
  rewrite !filter_app, map_app, IH. f_equal. cbn [filter]. destruct (f (b + n)); reflexivity.
Qed.
Lemma positions_filter v f n : positions v (bools f n) = filter (fun i => Bool.eqb (f i) v) (range 0 n).
Proof.
  induction n as [|n IH] using N_ind1; [reflexivity|]. rewrite bools_succ. unfold positions in *. rewrite positions_from_app, IH, lenN_bools. rewrite (range_snoc 0 (n + 1)) by lia. rewrite N.add_sub, filter_app. f_equal.
Qed.

Lemma dropN_nth {A} (d : A) i l : i < lenN l -> dropN i l = nthN d l i :: dropN (i + 1) l.
Proof.
  intros H. unfold nthN, dropN. assert (H' : (N.to_nat i < length l)%nat) by (unfold lenN in H; lia). rewrite N.add_1_r, N2Nat.inj_succ. clear H. revert H'. generalize (N.to_nat i). induction l as [|x l IH]; intros k Hk; [cbn in Hk; lia|].
  destruct k as [|k]; [reflexivity|]. cbn in Hk. exact (IH k ltac:(lia)).
Qed.

Section BitSet.
  Variables (zero : bool) (bv : bitvec) (rs : rsvec).
  Hypothesis Hwf : wf bv.
  Hypothesis G : rs_good bv rs.
  Local Notation d := (bdata bv).
  Local Notation L := (blen bv).

  Definition hit (i : N) : bool := Bool.eqb (bit_at d i) (negb zero).
  Definition lanes (c : N) : list N := filter (fun i => hit (16 * c + i)) (range 0 16).
  Definition last_chunk : N := (L - 1) / 16.
  Definition rescan (b : N) : list N := filter hit (range b L).
  Definition later (c : N) : list N := flat_map (fun k => map (N.add (16 * k)) (lanes k)) (range (c + 1) (last_chunk + 1)) ++ rescan (16 * last_chunk).

  Record loaded (it : bs_iter) (c : N) : Prop := {
    ld_len : 16 < L;
    ld_base : bs_base it = 16 * c;
    ld_lt : 16 * c < L;
    ld_content : bs_content_len it = lenN (lanes c);
    ld_cursor : bs_cursor it <= lenN (lanes c);
    ld_offsets : takeN (lenN (lanes c)) (bs_offsets it) = lanes c
  }.
  Definition bs_R (it : bs_iter) (l : list N) : Prop :=
    (exists c, loaded it c /\ l = map (N.add (16 * c)) (dropN (bs_cursor it) (lanes c)) ++ later c) \/
    (bs_cursor it = bs_content_len it /\ L <= bs_base it + 16 /\ l = rescan (bs_base it)).

  Lemma read_chunk c : 16 * c < L -> exists b, limbs_get_bits_unchecked (rdata rs) (16 * c) 16 = Ok (value b) /\ b = bools (fun i => bit_at d (16 * c + i)) 16.
  Proof.
    intros Hc. eexists. split; [|reflexivity]. rewrite (good_data _ _ G). apply limbs_get_bits_ok; [apply Hwf|lia|lia|]. destruct Hwf as [-> _]. 
    pose proof (N.div_mod (L + 63) 64 ltac:(lia)). pose proof (N.mod_lt (L + 63) 64 ltac:(lia)).
    pose proof (N.div_mod (16 * c + 16 + 63) 64 ltac:(lia)). pose proof (N.mod_lt (16 * c + 16 + 63) 64 ltac:(lia)).
    lia.
  Qed.

  Lemma load_ok it c : 16 < L -> 16 * c < L -> bs_base it = 16 * c ->
    loaded (bs_load_chunk zero it (value (bools (fun i => bit_at d (16 * c + i)) 16) mod 2 ^ 16)) c /\
    bs_cursor (bs_load_chunk zero it (value (bools (fun i => bit_at d (16 * c + i)) 16) mod 2 ^ 16)) = 0.
  Proof.
    intros H16 Hc Hb. split; [|reflexivity].
    set (b := bools (fun i => bit_at d (16 * c + i)) 16). unfold bs_load_chunk.
    assert (Hlt : value b < 2 ^ 16) by (pose proof (value_lt b); subst b; now rewrite lenN_bools in *).
    rewrite N.mod_small by auto. set (m := if zero then N.lxor (value b) (2 ^ 16 - 1) else value b).
    assert (Hm : forall i, i < 16 -> N.testbit m i = hit (16 * c + i)).
    { intros i Hi. unfold m, hit. assert (E : N.testbit (value b) i = bit_at d (16 * c + i)) by (rewrite testbit_value; subst b; now rewrite nthN_bools).
      destruct zero; [|rewrite E; now destruct (bit_at d (16 * c + i))].
      change (2 ^ 16 - 1) with (N.ones 16). rewrite N.lxor_spec, E, N.ones_spec_low by auto. now destruct (bit_at d (16 * c + i)). }
    assert (HL : filter (N.testbit m) (range 0 16) = lanes c).
    { unfold lanes. apply filter_ext_in. intros i Hi. apply In_range in Hi. apply Hm. lia. }
    assert (Hp : popcount m = lenN (lanes c)).
    { rewrite (popcount_cnt m 16); [now rewrite <- filter_cnt, HL|]. unfold m. destruct zero; [|auto].
      destruct (N.eq_dec (N.lxor (value b) (2 ^ 16 - 1)) 0) as [->|Hz]; [reflexivity|]. apply N.log2_lt_pow2; [lia|].
      eapply N.le_lt_trans; [apply N.log2_lxor|]. apply N.max_lub_lt; [|reflexivity].
      destruct (N.eq_dec (value b) 0) as [->|Hz']; [reflexivity|]. apply N.log2_lt_pow2; [lia|auto]. }
    rewrite HL, Hp. constructor; cbn [bs_base bs_offsets bs_content_len bs_cursor]; auto; try lia.
    apply takeN_app_exact.
  Qed.

  Lemma later_step c : c < last_chunk -> later c = map (N.add (16 * (c + 1))) (lanes (c + 1)) ++ later (c + 1).
  Proof. intros H. unfold later. rewrite (range_cons (c + 1)) by lia. cbn [flat_map]. now rewrite <- app_assoc. Qed.
  Lemma later_last : later last_chunk = rescan (16 * last_chunk).
  Proof. unfold later. now rewrite range_nil by lia. Qed.
  Lemma last_iff c : 16 * c < L -> (L <= 16 * c + 16 <-> c = last_chunk).
  Proof.
    intros H. unfold last_chunk. pose proof (N.div_mod (L - 1) 16 ltac:(lia)). pose proof (N.mod_lt (L - 1) 16 ltac:(lia)). lia.
  Qed.
  Lemma le_last c : 16 * c < L -> c <= last_chunk.
  Proof.
    intros H. unfold last_chunk. pose proof (N.div_mod (L - 1) 16 ltac:(lia)). pose proof (N.mod_lt (L - 1) 16 ltac:(lia)). lia.
  Qed.

  Lemma load_next_ok fuel : forall it c, loaded it c -> (N.to_nat (L - 16 * c) < fuel)%nat -> bs_cursor it = bs_content_len it ->
    exists it' some, bs_load_next_chunk fuel zero rs it = Ok (it', some) /\
      if (some : bool) then exists c', loaded it' c' /\ bs_cursor it' < lenN (lanes c') /\ later c = map (N.add (16 * c')) (dropN (bs_cursor it') (lanes c')) ++ later c'
      else bs_cursor it' = bs_content_len it' /\ L <= bs_base it' + 16 /\ bs_base it' < L /\ later c = rescan (bs_base it').
  Proof.
    induction fuel as [|fuel IH]; intros it c Hl Hf Hc; [lia|]. cbn [bs_load_next_chunk]. rewrite Hc, N.eqb_refl, (good_len _ _ G), (ld_base _ _ Hl). unfold VECTOR_SIZE.
    pose proof (ld_lt _ _ Hl) as Hlt. destruct (N.leb_spec L (16 * c + 16)) as [Hle|Hgt].
    - exists it, false. split; [reflexivity|]. rewrite (ld_base _ _ Hl). repeat split; auto. apply last_iff in Hle; auto. subst c. apply later_last.
    - replace (16 * c + 16) with (16 * (c + 1)) by lia. destruct (read_chunk (c + 1)) as (b & Eb & Hb); [lia|]. rewrite Eb. cbn [bind]. subst b.
      assert (Hlast : c < last_chunk) by (pose proof (le_last (c + 1) ltac:(lia)); lia).
      match goal with |- context [bs_load_chunk zero ?i _] => destruct (load_ok i (c + 1) (ld_len _ _ Hl) ltac:(lia) eq_refl) as [H1 H2] end.
      match type of H1 with loaded ?i _ => set (it1 := i) in * end.
      rewrite later_step by auto.
      destruct (N.eq_dec (lenN (lanes (c + 1))) 0) as [E0|E0].
      + destruct (IH it1 (c + 1) H1 ltac:(lia)) as (it' & some & E & HR); [rewrite (ld_content _ _ H1), H2; auto|]. exists it', some. split; [exact E|].
        destruct (lanes (c + 1)) as [|x l] eqn:El; [exact HR|rewrite lenN_cons in E0; lia].
      + exists it1, true. split; [|exists (c + 1); rewrite H2; repeat split; try apply H1; lia].
        destruct fuel as [|fuel]; [lia|]. cbn [bs_load_next_chunk]. rewrite H2, (ld_content _ _ H1). destruct (N.eqb_spec 0 (lenN (lanes (c + 1)))); [lia|reflexivity].
  Qed.

  Lemma scan_ok fuel : forall b, (N.to_nat (L - b) < fuel)%nat -> b <= L ->
    exists b', bs_scan fuel zero rs b = Ok b' /\ b' <= L /\ rescan b = (if b' <? L then [b'] else []) ++ rescan (b' + 1) /\ b <= b'.
  Proof.
    induction fuel as [|fuel IH]; intros b Hf Hb; [lia|]. cbn [bs_scan]. rewrite (good_len _ _ G). destruct (N.ltb_spec b L) as [Hlt|Hge].
    - rewrite (rs_get_unchecked_ok bv) by auto. cbn [bind].
      assert (E : (bitN (bit_at d b) =? (if zero then 0 else 1)) = hit b) by (unfold hit; now destruct (bit_at d b), zero). rewrite E.
      assert (Er : rescan b = (if hit b then [b] else []) ++ rescan (b + 1)) by (unfold rescan; rewrite range_cons by auto; cbn [filter]; now destruct (hit b)).
      destruct (hit b) eqn:Eh.
      + exists b. destruct (N.ltb_spec b L); [|lia]. repeat split; auto; lia.
      + destruct (IH (b + 1)) as (b' & E' & H1 & H2 & H3); [lia|lia|]. exists b'. split; [exact E'|]. rewrite Er. cbn [app]. repeat split; auto. lia.
    - exists b. destruct (N.ltb_spec b L); [lia|]. split; [reflexivity|]. unfold rescan. rewrite !range_nil by lia. repeat split; auto; lia.
  Qed.

  Lemma emit_ok it c : loaded it c -> bs_cursor it < lenN (lanes c) -> forall l, l = map (N.add (16 * c)) (dropN (bs_cursor it) (lanes c)) ++ later c ->
    exists it', (let* offset := idx (bs_offsets it) (bs_cursor it) in
    Ok (mkbs (bs_base it) (bs_offsets it) (bs_content_len it) (bs_cursor it + 1), Some (bs_base it + offset))) = Ok (it', getN l 0) /\ bs_R it' (dropN 1 l).
  Proof.
    intros Hl Hc l ->. assert (Hlen : lenN (lanes c) <= lenN (bs_offsets it)).
    { pose proof (f_equal (@lenN N) (ld_offsets _ _ Hl)) as E. rewrite lenN_takeN in E. lia. }
    rewrite (idx_ok 0) by lia. cbn [bind]. rewrite (dropN_nth 0) by auto. cbn [map app].
    assert (En : nthN 0 (bs_offsets it) (bs_cursor it) = nthN 0 (lanes c) (bs_cursor it)) by (rewrite <- (nthN_takeN _ (lenN (lanes c)) (bs_offsets it)) by auto; now rewrite (ld_offsets _ _ Hl)).
    rewrite En. eexists. split; [rewrite (ld_base _ _ Hl); reflexivity|]. left. exists c. split; [|reflexivity].
    destruct Hl. constructor; cbn; auto. lia.
  Qed.

  Lemma bs_step_ok it l : bs_R it l -> exists it', bs_next zero rs it = Ok (it', getN l 0) /\ bs_R it' (dropN 1 l).
  Proof.
    intros HR. unfold bs_next. rewrite (good_len _ _ G).
    assert (Hscan : forall it l, bs_cursor it = bs_content_len it -> L <= bs_base it + 16 -> bs_base it < L -> l = rescan (bs_base it) ->
      exists it', (let* base := bs_scan (S (N.to_nat L)) zero rs (bs_base it) in
        if base <? L then Ok (mkbs (base + 1) (bs_offsets it) (bs_content_len it) (bs_cursor it), Some base)
        else Ok (mkbs base (bs_offsets it) (bs_content_len it) (bs_cursor it), None)) = Ok (it', getN l 0) /\ bs_R it' (dropN 1 l)).
    { clear it l HR. intros it l H1 H2 H3 ->. destruct (scan_ok (S (N.to_nat L)) (bs_base it)) as (b' & E & H4 & H5 & H6); [lia|lia|]. rewrite E. cbn [bind]. rewrite H5.
      destruct (N.ltb_spec b' L); cbn [app]; eexists; split; try reflexivity; try (right; cbn; repeat split; auto; lia).
      - unfold rescan. rewrite range_nil by lia. reflexivity.
      - right. cbn. repeat split; auto; [lia|]. unfold rescan. rewrite !range_nil by lia. reflexivity. }
    destruct HR as [(c & Hl & El)|(H1 & H2 & H3)].
    - rewrite (ld_base _ _ Hl). pose proof (ld_lt _ _ Hl) as Hlt. destruct (N.leb_spec L (16 * c)); [lia|].
      destruct (N.eqb_spec (bs_cursor it) (bs_content_len it)) as [Ec|Ec].
      + destruct (load_next_ok (S (N.to_nat L)) it c Hl ltac:(lia) Ec) as (it' & some & E & HR). rewrite E. cbn [bind]. cbn beta iota.
        rewrite (ld_content _ _ Hl) in Ec. rewrite dropN_all in El by lia. cbn [map app] in El.
        destruct some.
        * destruct HR as (c' & Hl' & Hc' & El'). apply (emit_ok it' c'); auto. congruence.
        * destruct HR as (H1 & H2 & H3 & H4). apply Hscan; auto. congruence.
      + rewrite <- (ld_base _ _ Hl). apply (emit_ok it c); auto. rewrite (ld_content _ _ Hl) in Ec. pose proof (ld_cursor _ _ Hl). lia.
    - destruct (N.leb_spec L (bs_base it)) as [Hge|Hlt].
      + subst l. unfold rescan. rewrite range_nil by lia. exists it. split; [reflexivity|]. right. repeat split; auto. unfold rescan. now rewrite range_nil by lia.
      + rewrite H1, N.eqb_refl. cbn [bs_load_next_chunk]. rewrite H1, N.eqb_refl, (good_len _ _ G). unfold VECTOR_SIZE. destruct (N.leb_spec L (bs_base it + 16)); [|lia]. cbn [bind]. cbn beta iota. now apply Hscan.
  Qed.

  Lemma bs_new_ok : exists it, bs_new zero rs = Ok it /\
    bs_R it ((if 16 <? L then filter hit (range 0 (16 * (last_chunk + 1))) else []) ++ rescan (16 * last_chunk)).
  Proof.
    unfold bs_new. rewrite (good_len _ _ G). unfold VECTOR_SIZE. destruct (N.ltb_spec 16 L).
    - destruct (read_chunk 0) as (b & Eb & ->); [lia|]. change (16 * 0) with 0 in Eb. rewrite Eb. cbn [bind]. eexists. split; [reflexivity|]. left. exists 0.
      match goal with |- context [bs_load_chunk zero ?i _] => destruct (load_ok i 0 H ltac:(lia) eq_refl) as [H1 H2] end. split; [exact H1|]. 
      change (16 * 0) with 0 in H2 |- * at 1. rewrite H2. unfold later. rewrite app_assoc. f_equal.
      assert (E : forall k, filter hit (range 0 (16 * (k + 1))) = map (N.add 0) (lanes 0) ++ flat_map (fun k => map (N.add (16 * k)) (lanes k)) (range (0 + 1) (k + 1))).
      { clear. intros k. induction k as [|k IH] using N_ind1.
        - rewrite (range_nil (0 + 1)) by lia. cbn [flat_map]. rewrite app_nil_r. change (16 * (0 + 1)) with (0 + 16). rewrite filter_map_shift. reflexivity.
        - rewrite (range_app 0 (16 * (k + 1))) by lia. rewrite filter_app, IH. rewrite <- app_assoc. f_equal. rewrite (range_snoc (0 + 1) (k + 1 + 1)) by lia. rewrite N.add_sub, flat_map_app. f_equal.
          cbn [flat_map]. rewrite app_nil_r. replace (16 * (k + 1 + 1)) with (16 * (k + 1) + 16) by lia. apply filter_map_shift. }
      apply E.
    - eexists. split; [reflexivity|]. right. cbn. repeat split; auto. cbn [app]. unfold last_chunk. rewrite N.div_small by lia. reflexivity.
  Qed.
End BitSet.

(** The outputs of [n] successive calls of [next]. *)
Fixpoint calls {S A} (next : S -> res (S * option A)) (n : nat) (s : S) : res (list (option A)) :=
  match n with
  | O => Ok []
  | S n => let* '(s, o) := next s in let* r := calls next n s in Ok (o :: r)
  end.
(** [n] calls on an iterator that yields exactly the list [l]. *)
Fixpoint outputs {A} (n : nat) (l : list A) : list (option A) :=
  match n, l with
  | O, _ => []
  | S n, [] => None :: outputs n []
  | S n, x :: l => Some x :: outputs n l
  end.
Lemma calls_ok {S A} (R : S -> list A -> Prop) next : (forall s l, R s l -> exists s', next s = Ok (s', getN l 0) /\ R s' (dropN 1 l)) ->
  forall n s l, R s l -> calls next n s = Ok (outputs n l).
Proof.
  intros H. induction n as [|n IH]; intros s l HR; [reflexivity|]. cbn [calls]. destruct (H s l HR) as (s' & E & HR'). rewrite E. cbn [bind]. rewrite (IH _ _ HR'). cbn [bind].
  destruct l; reflexivity.
Qed.
Lemma outputs_inj {A} (l m : list A) : (forall n, outputs n l = outputs n m) -> l = m.
Proof.
  revert m. induction l as [|x l IH]; intros [|y m] H; auto; pose proof (H 1%nat) as H1; cbn in H1; try discriminate.
  injection H1 as ->. f_equal. apply IH. intros n. specialize (H (S n)). cbn in H. now injection H.
Qed.

(** ** C67: what the iterator yields. With more than 16 bits, the matching bits of the last 16-bit
    chunk are reported twice: once from all 16 stored bits, even those past the length, and
    once by the scan at the end. *)
Definition bit_set_yield (zero : bool) (bv : bitvec) : list N :=
  let p := positions (negb zero) (bits bv) in
  let b := 16 * ((lenN (bits bv) - 1) / 16) in
  if lenN (bits bv) <=? 16 then p
  else filter (fun i => i <? b) p
    ++ map (N.add b) (positions (negb zero) (bools (fun i => bit_at (bdata bv) (b + i)) 16))
    ++ filter (fun i => b <=? i) p.

Lemma filter_all_true {A} (f : A -> bool) l : (forall x, In x l -> f x = true) -> filter f l = l.
Proof. intros H. induction l as [|x l IH]; [reflexivity|]. cbn [filter]. rewrite H by now left. f_equal. apply IH. intros; apply H; now right. Qed.
Lemma filter_all_false {A} (f : A -> bool) l : (forall x, In x l -> f x = false) -> filter f l = [].
Proof. intros H. induction l as [|x l IH]; [reflexivity|]. cbn [filter]. rewrite H by now left. apply IH. intros; apply H; now right. Qed.
Lemma filter_range_lt f a b c : a <= b -> b <= c -> filter (fun i => i <? b) (filter f (range a c)) = filter f (range a b).
Proof.
  intros H1 H2. rewrite (range_app a b c) by auto. rewrite !filter_app.
  rewrite (filter_all_true (fun i => i <? b) (filter f (range a b))). 2:{ intros x Hx. apply filter_In in Hx. destruct Hx as [Hx _]. apply In_range in Hx. apply N.ltb_lt. lia. }
  rewrite (filter_all_false (fun i => i <? b) (filter f (range b c))). 2:{ intros x Hx. apply filter_In in Hx. destruct Hx as [Hx _]. apply In_range in Hx. apply N.ltb_ge. lia. }
  apply app_nil_r.
Qed.
Lemma filter_range_ge f a b c : a <= b -> b <= c -> filter (fun i => b <=? i) (filter f (range a c)) = filter f (range b c).
Proof.
  intros H1 H2. rewrite (range_app a b c) by auto. rewrite !filter_app.
  rewrite (filter_all_false (fun i => b <=? i) (filter f (range a b))). 2:{ intros x Hx. apply filter_In in Hx. destruct Hx as [Hx _]. apply In_range in Hx. apply N.leb_gt. lia. }
  rewrite (filter_all_true (fun i => b <=? i) (filter f (range b c))). 2:{ intros x Hx. apply filter_In in Hx. destruct Hx as [Hx _]. apply In_range in Hx. apply N.leb_le. lia. }
  reflexivity.
Qed.

Theorem C67_exact zero bv rs n :
  wf bv -> rs_from_bit_vec bv = Ok rs ->
  exists it, bs_new zero rs = Ok it /\ calls (bs_next zero rs) n it = Ok (outputs n (bit_set_yield zero bv)).
Proof.
  intros H E. pose proof (built bv rs H E) as G. destruct (bs_new_ok zero bv rs H G) as (it & En & HR). exists it. split; [exact En|].
  rewrite (calls_ok _ _ (bs_step_ok zero bv rs H G) n _ _ HR). do 2 f_equal. unfold bit_set_yield. rewrite lenN_bits. fold (last_chunk bv).
  unfold bits. rewrite positions_filter. fold (hit zero bv).
  assert (Hc : 16 * last_chunk bv <= blen bv) by (unfold last_chunk; pose proof (N.div_mod (blen bv - 1) 16 ltac:(lia)); lia).
  destruct (N.ltb_spec 16 (blen bv)), (N.leb_spec (blen bv) 16); try lia.
  - replace (16 * (last_chunk bv + 1)) with (16 * last_chunk bv + 16) by lia.
    rewrite (range_app 0 (16 * last_chunk bv)) by lia. rewrite filter_app, filter_map_shift, <- app_assoc.
    rewrite positions_filter. change (fun i => Bool.eqb (bit_at (bdata bv) i) (negb zero)) with (hit zero bv).
    rewrite filter_range_lt, filter_range_ge by lia. reflexivity.
  - cbn [app]. unfold last_chunk. rewrite N.div_small by lia. reflexivity.
Qed.
Definition ex_bs : bitvec := mkbv [0x0000F0F000010003] 52.
Example C67_ex : wf ex_bs /\
  bit_set_yield false ex_bs = [0; 1; 16; 36; 37; 38; 39; 44; 45; 46; 47] /\
  bit_set_yield true (mkbv [0x1FFFF] 17) = [17; 18; 19; 20; 21; 22; 23; 24; 25; 26; 27; 28; 29; 30; 31] /\
  (let* rs := rs_from_bit_vec (mkbv [0x1FFFF] 17) in let* it := bs_new false rs in calls (bs_next false rs) 20 it) =
    Ok (outputs 20 [0; 1; 2; 3; 4; 5; 6; 7; 8; 9; 10; 11; 12; 13; 14; 15; 16; 16]).
Proof. split; [split; [reflexivity|repeat constructor]|]. vm_compute. auto. Qed.

(** ** C50: the iterator agrees with [iter0]/[iter1] exactly when the vector has at most 16 bits or
    no stored bit of its last 16-bit chunk matches. *)
Definition last_chunk_clear (zero : bool) (bv : bitvec) : Prop :=
  forall i, i < 16 -> bit_at (bdata bv) (16 * ((lenN (bits bv) - 1) / 16) + i) = zero.
Definition agrees (zero : bool) (rs : rsvec) : Prop :=
  exists it it', bs_new zero rs = Ok it /\ sel_new zero rs = Ok it' /\
    forall n, exists r, calls (bs_next zero rs) n it = Ok r /\ calls (sel_next zero rs) n it' = Ok r.

Lemma agrees_iff zero bv rs : wf bv -> rs_from_bit_vec bv = Ok rs ->
  (agrees zero rs <-> bit_set_yield zero bv = positions (negb zero) (bits bv)).
Proof.
  intros H E. pose proof (built bv rs H E) as G.
  destruct (C67_exact zero bv rs 0 H E) as (it & En & _).
  assert (Hb : forall n, calls (bs_next zero rs) n it = Ok (outputs n (bit_set_yield zero bv))).
  { intros n. destruct (C67_exact zero bv rs n H E) as (it2 & En2 & H2). rewrite En in En2. injection En2 as <-. exact H2. }
  destruct (sel_new_ok zero bv rs H G) as (it' & Es & HR).
  assert (Hs : forall n, calls (sel_next zero rs) n it' = Ok (outputs n (positions (negb zero) (bits bv)))).
  { intros n. apply (calls_ok (sel_R zero bv rs)); [|exact HR]. intros s l Hsl. destruct (sel_step_ok zero bv rs H G s l INext Hsl I) as (s' & E1 & E2).
    cbn [sel_step iter_spec fst snd] in E1, E2. destruct (sel_next zero rs s) as [[s2 o]| |]; try discriminate E1. cbn [bind] in E1. injection E1 as <- <-. eauto. }
  split.
  - intros (i1 & i2 & E1 & E2 & Hn). rewrite En in E1. injection E1 as <-. rewrite Es in E2. injection E2 as <-.
    apply outputs_inj. intros n. destruct (Hn n) as (r & R1 & R2). rewrite Hb in R1. rewrite Hs in R2. congruence.
  - intros Eq. exists it, it'. repeat (split; [assumption|]). intros n. eexists. split; [apply Hb|]. rewrite Hs, Eq. reflexivity.
Qed.

Theorem C50_partial zero bv rs :
  wf bv -> rs_from_bit_vec bv = Ok rs ->
  (agrees zero rs <-> lenN (bits bv) <= 16 \/ last_chunk_clear zero bv).
Proof.
  intros H E. rewrite (agrees_iff zero bv rs H E). unfold bit_set_yield, last_chunk_clear. rewrite lenN_bits.
  destruct (N.leb_spec (blen bv) 16) as [Hs|Hg]; [tauto|].
  set (b := 16 * ((blen bv - 1) / 16)).
  assert (Hb : b <= blen bv) by (unfold b; pose proof (N.div_mod (blen bv - 1) 16 ltac:(lia)); lia).
  set (p := positions (negb zero) (bits bv)).
  assert (Hp : p = filter (fun i => i <? b) p ++ filter (fun i => b <=? i) p).
  { unfold p, bits. rewrite positions_filter. rewrite filter_range_lt, filter_range_ge by lia. rewrite <- filter_app. now rewrite <- range_app by lia. }
  rewrite positions_filter.
  set (c := filter (fun i => Bool.eqb (bit_at (bdata bv) (b + i)) (negb zero)) (range 0 16)).
  assert (Hc : c = [] <-> forall i, i < 16 -> bit_at (bdata bv) (b + i) = zero).
  { unfold c. split.
    - intros Ec i Hi. destruct (Bool.eqb (bit_at (bdata bv) (b + i)) (negb zero)) eqn:Eb; [|now destruct (bit_at (bdata bv) (b + i)), zero].
      assert (Hin : In i (filter (fun i => Bool.eqb (bit_at (bdata bv) (b + i)) (negb zero)) (range 0 16))) by (apply filter_In; split; [apply In_range; lia|exact Eb]).
      rewrite Ec in Hin. destruct Hin.
    - intros Hz. apply filter_all_false. intros i Hi. apply In_range in Hi. rewrite Hz by lia. now destruct zero. }
  rewrite <- Hc. split.
  - intros Eq. right. apply (f_equal (@lenN N)) in Eq. rewrite Hp in Eq at 3. rewrite !lenN_app, lenN_map in Eq. destruct c; [reflexivity|]. rewrite lenN_cons in Eq. lia.
  - intros [Hx|Hx]; [lia|]. rewrite Hx. cbn [map app]. now rewrite <- Hp.
Qed.
Example C50_ex :
  wf (mkbv [0x0123] 12) /\ lenN (bits (mkbv [0x0123] 12)) <= 16 /\
  wf (mkbv [0x123] 40) /\ last_chunk_clear false (mkbv [0x123] 40) /\ bit_set_yield false (mkbv [0x123] 40) = [0; 1; 5; 8].
Proof.
  repeat (split; [split; [reflexivity|repeat constructor]|]). split; [discriminate|]. split; [split; [reflexivity|repeat constructor]|]. split; [|reflexivity].
  intros i Hi. change (16 * ((lenN (bits (mkbv [291] 40)) - 1) / 16)) with 32. assert (H : forallb (fun i => negb (bit_at [291] (32 + i))) (range 0 16) = true) by reflexivity.
  rewrite forallb_forall in H. specialize (H i). rewrite In_range in H. specialize (H ltac:(lia)). cbn [bdata]. now destruct (bit_at [291] (32 + i)).
Qed.
(** With 17 one bits, [bit_set_iter1] yields position 16 twice; on the same vector
    [bit_set_iter0] yields positions past the length. *)
Theorem C50_refuted : exists zero bv rs, wf bv /\ rs_from_bit_vec bv = Ok rs /\ ~ agrees zero rs.
Proof.
  destruct (rs_from_bit_vec (mkbv [0x1FFFF] 17)) as [rs| |] eqn:E; [|vm_compute in E; discriminate E|vm_compute in E; discriminate E].
  assert (H : wf (mkbv [0x1FFFF] 17)) by (split; [reflexivity|repeat constructor]).
  exists false, (mkbv [0x1FFFF] 17), rs. repeat (split; [assumption|]). rewrite (agrees_iff _ _ _ H E). vm_compute. discriminate.
Qed.
