(** * Properties C27, C55 and C69: the sparse vector.

    A sparse vector built from the list [p] of positions and the length [len] is compared with the
    plain bit list [bits_of p len]; the answers are then those of [Spec]. *)
From Verif Require Import Base Spec BaseFacts WordFacts BitVecModel BitVecProofs BitVecProofs2 PropsBitVec
  RsVecModel RsVecProofs RsVecSelect IterSpec IterFacts IterLazy RsIterModel RsIterProofs RsEqProofs PropsRsVec
  GenIterModel GenIterProofs PropsIter EFModel EFProofs EFQuery EFIterProofs PropsEF SparseModel.
From Coq Require Import Sorted.

Definition bits_of (p : list N) (len : N) : list bool := map (fun i => existsb (N.eqb i) p) (range 0 len).
Definition increasing (l : list N) : Prop := forall i j x y, i < j -> getN l i = Some x -> getN l j = Some y -> x < y.

(** ** Lists of positions *)
Lemma increasing_cons a l : increasing (a :: l) <-> increasing l /\ forall y, In y l -> a < y.
Proof.
  split.
  - intros H. split.
    + intros i j x y Hij Hx Hy. apply (H (i + 1) (j + 1)); rewrite ?getN_cons_succ; auto. lia.
    + intros y Hy. apply In_getN in Hy as (k & Hk & Ek). apply (H 0 (k + 1)); rewrite ?getN_cons_succ; auto. lia.
  - intros [H1 H2] i j x y Hij Hx Hy. replace j with (j - 1 + 1) in Hy by lia. rewrite getN_cons_succ in Hy.
    destruct (N.eq_dec i 0) as [->|Hi].
    + assert (x = a) as -> by (cbn in Hx; congruence). apply H2. eapply getN_In; eauto.
    + replace i with (i - 1 + 1) in Hx by lia. rewrite getN_cons_succ in Hx. apply (H1 (i - 1) (j - 1)); auto. lia.
Qed.
Lemma increasing_nil : increasing [].
Proof. intros i j x y _ Hx. apply getN_some_lt in Hx. change (lenN (@nil N)) with 0 in Hx. lia. Qed.
Lemma increasing_ext l : forall m, increasing l -> increasing m -> (forall x, In x l <-> In x m) -> l = m.
Proof.
  induction l as [|a l IH]; intros m Hl Hm H.
  - destruct m as [|b m]; auto. destruct (H b) as [_ []]. now left.
  - destruct m as [|b m]; [destruct (H a) as [[] _]; now left|].
    apply increasing_cons in Hl as [Hl Ha]. apply increasing_cons in Hm as [Hm Hb].
    assert (a = b).
    { destruct (H a) as [[E|H1] _]; [now left|auto|]. destruct (H b) as [_ [E|H2]]; [now left|auto|].
      specialize (Ha b H2). specialize (Hb a H1). lia. }
    subst b. f_equal. apply IH; auto. intros x. specialize (H x). cbn in H. split; intros Hx.
    + destruct H as [[E|H] _]; auto. subst x. specialize (Ha a Hx). lia.
    + destruct H as [_ [E|H]]; auto. subst x. specialize (Hb a Hx). lia.
Qed.
Lemma positions_from_increasing b l : forall i, increasing (positions_from b i l) /\ forall x, In x (positions_from b i l) -> i <= x.
Proof.
  induction l as [|a l IH]; intros i; cbn [positions_from]; [split; [apply increasing_nil|intros x []]|].
  destruct (IH (i + 1)) as [H1 H2]. destruct (Bool.eqb a b).
  - split; [apply increasing_cons; split; auto; intros y Hy; specialize (H2 y Hy); lia|].
    intros x [<-|Hx]; [lia|]. specialize (H2 x Hx). lia.
  - split; auto. intros x Hx. specialize (H2 x Hx). lia.
Qed.
Lemma positions_increasing b l : increasing (positions b l).
Proof. apply positions_from_increasing. Qed.
Lemma existsb_In i p : existsb (N.eqb i) p = true <-> In i p.
Proof.
  rewrite existsb_exists. split; [intros (x & Hx & E); apply N.eqb_eq in E; now subst|]. intros H. exists i. now rewrite N.eqb_refl.
Qed.
Lemma lenN_bits_of p len : lenN (bits_of p len) = len.
Proof. unfold bits_of. rewrite lenN_map, lenN_range. lia. Qed.
Lemma nthN_bits_of p len i : i < len -> nthN false (bits_of p len) i = existsb (N.eqb i) p.
Proof. intros H. unfold bits_of. rewrite (nthN_map _ 0), nthN_range by (rewrite ?lenN_range; lia). reflexivity. Qed.
Lemma In_positions b l x : In x (positions b l) <-> getN l x = Some b.
Proof.
  split.
  - intros H. apply In_getN in H as (k & Hk & E). apply getN_positions in E as (H1 & H2 & _).
    rewrite (getN_ok (negb b)) by auto. now rewrite H2.
  - intros H. apply getN_Some_inv in H as [H1 H2]. eapply getN_In. apply getN_positions. eauto.
Qed.
Lemma positions_bits_of p len : increasing p -> (forall x, In x p -> x < len) -> positions true (bits_of p len) = p.
Proof.
  intros Hp Hl. apply increasing_ext; auto using positions_increasing. intros x. rewrite In_positions. split.
  - intros H. apply getN_Some_inv in H as [H1 H2]. rewrite lenN_bits_of in H1. specialize (H2 false).
    rewrite nthN_bits_of in H2 by auto. now apply existsb_In.
  - intros H. rewrite (getN_ok false) by (rewrite lenN_bits_of; auto). f_equal. rewrite nthN_bits_of by auto. now apply existsb_In.
Qed.
Lemma bits_of_positions b l : bits_of (positions b l) (lenN l) = map (Bool.eqb b) l.
Proof.
  apply (list_ext false); [now rewrite lenN_bits_of, lenN_map|]. intros i Hi. rewrite lenN_bits_of in Hi.
  rewrite nthN_bits_of by auto. rewrite (nthN_map _ false) by auto.
  apply Bool.eq_iff_eq_true. rewrite existsb_In, In_positions, (getN_ok false) by auto.
  rewrite Bool.eqb_true_iff. split; congruence.
Qed.
Lemma rank_positions_from b l : forall i q, count b (takeN (q - i) l) = lenN (filter (fun x => x <? q) (positions_from b i l)).
Proof.
  induction l as [|a l IH]; intros i q; [now rewrite takeN_nil|]. cbn [positions_from].
  specialize (IH (i + 1) q). destruct (N.ltb_spec i q) as [H|H].
  - replace (takeN (q - i) (a :: l)) with (a :: takeN (q - (i + 1)) l).
    + cbn [count]. rewrite IH. destruct (Bool.eqb a b); [|lia]. cbn [filter].
      destruct (N.ltb_spec i q); [|lia]. rewrite lenN_cons. lia.
    + unfold takeN. now replace (N.to_nat (q - i)) with (S (N.to_nat (q - (i + 1)))) by lia.
  - replace (q - i) with 0 by lia. replace (q - (i + 1)) with 0 in IH by lia. cbn in IH. cbn [takeN N.to_nat firstn count].
    change (takeN 0 (a :: l)) with (@nil bool). cbn [count].
    destruct (Bool.eqb a b); auto. cbn [filter]. destruct (N.ltb_spec i q); [lia|auto].
Qed.
Lemma rank_positions b l q : rank_spec b l q = lenN (filter (fun x => x <? q) (positions b l)).
Proof. unfold rank_spec, positions. rewrite <- rank_positions_from. now rewrite N.sub_0_r. Qed.
Lemma rank_split l q : rank_spec false l q + rank_spec true l q = N.min q (lenN l).
Proof. unfold rank_spec. pose proof (count_true_false (takeN q l)) as H. rewrite lenN_takeN in H. lia. Qed.

(** ** C27 *)
Lemma increasing_windows l : increasing l -> windows_sorted l = true /\ windows_distinct l = true.
Proof.
  induction l as [|a [|b l] IH]; intros H; [auto|auto|]. apply increasing_cons in H as [H Ha].
  destruct (IH H) as [H1 H2]. specialize (Ha b (or_introl eq_refl)).
  split; [change (((a <=? b) && windows_sorted (b :: l)) = true)|change ((negb (a =? b) && windows_distinct (b :: l)) = true)];
    rewrite ?H1, ?H2; destruct (N.leb_spec a b), (N.eqb_spec a b); auto; lia.
Qed.
Lemma increasing_nondecreasing l : increasing l -> nondecreasing l.
Proof. intros H. apply windows_nondecreasing. now apply increasing_windows. Qed.

Section Sparse.
Variables (p : list N) (len w : N) (s : sparse).
Hypothesis Hp : increasing p.
Hypothesis Hlen : Forall (fun x => x < len) p.
Hypothesis H64 : len < 2 ^ 64.
Hypothesis Hw : w < 64.

Lemma p_words : Forall (fun x => x < 2 ^ 64) p.
Proof using Hp Hlen H64 Hw. eapply Forall_impl; [|exact Hlen]. cbn. lia. Qed.

Theorem C27_construction : exists s', sp_new w p len = Ok s' /\ sp_len s' = len.
Proof using Hp Hlen H64 Hw.
  destruct (increasing_windows p Hp) as [H1 H2]. unfold sp_new. rewrite H1, H2. cbn [assert bind].
  destruct (C21_construction p w p_words Hw) as [H _].
  destruct (H (increasing_nondecreasing p Hp)) as (e & E & _). rewrite E. cbn [bind]. eauto.
Qed.

Hypothesis E : sp_new w p len = Ok s.
Lemma sp_parts : ef_from_slice w p = Ok (sp_vec s) /\ sp_len s = len.
Proof using Hp Hlen H64 Hw E.
  destruct (increasing_windows p Hp) as [H1 H2]. unfold sp_new in E. rewrite H1, H2 in E. cbn [assert bind] in E.
  destruct (ef_from_slice w p); cbn [bind] in E; try discriminate. injection E as <-. auto.
Qed.
Lemma In_lt x : In x p -> x < len.
Proof using Hp Hlen H64 Hw E. rewrite Forall_forall in Hlen. auto. Qed.

Theorem C27_get i : i < 2 ^ 64 ->
  sp_is_set s i = Ok (getN (bits_of p len) i) /\ sp_get s i = Ok (option_map bitN (getN (bits_of p len) i)).
Proof using Hp Hlen H64 Hw E.
  intros Hi. destruct sp_parts as [Ee El].
  assert (H : sp_is_set s i = Ok (getN (bits_of p len) i)); [|unfold sp_get; rewrite H; auto].
  unfold sp_is_set. rewrite El. destruct (N.leb_spec len i) as [H|H].
  - now rewrite getN_none by (rewrite lenN_bits_of; lia).
  - destruct (C22_predecessor p w (sp_vec s) i (increasing_nondecreasing p Hp) p_words Hw Ee Hi) as (o & Eo & Ho).
    rewrite Eo. cbn [bind]. rewrite (getN_ok false), nthN_bits_of by (rewrite ?lenN_bits_of; auto). do 2 f_equal.
    destruct (existsb (N.eqb i) p) eqn:Ex.
    + apply existsb_In in Ex. destruct o as [x|].
      * destruct Ho as (H1 & H2 & H3). specialize (H3 i Ex). apply N.eqb_eq. lia.
      * specialize (Ho i Ex). lia.
    + destruct o as [x|]; auto. destruct Ho as (H1 & _). destruct (N.eqb_spec x i); auto. subst x.
      apply existsb_In in H1. congruence.
Qed.
Theorem C27_rank i : i < 2 ^ 64 ->
  sp_rank1 s i = Ok (rank_spec true (bits_of p len) i) /\ sp_rank0 s i = Ok (rank_spec false (bits_of p len) i).
Proof using Hp Hlen H64 Hw E.
  intros Hi. destruct sp_parts as [Ee El].
  assert (H : forall q, q < 2 ^ 64 -> ef_rank (sp_vec s) q = Ok (rank_spec true (bits_of p len) q)).
  { intros q Hq. rewrite (C24_rank p w (sp_vec s) q (increasing_nondecreasing p Hp) p_words Hw Ee Hq).
    rewrite rank_positions, positions_bits_of; auto using In_lt. }
  split; [now apply H|]. unfold sp_rank0. rewrite El.
  pose proof (rank_split (bits_of p len) i) as H1. pose proof (rank_split (bits_of p len) len) as H2.
  rewrite lenN_bits_of in H1, H2. destruct (N.leb_spec len i) as [Hc|Hc].
  - rewrite H by auto. cbn [bind]. rewrite sub_ok by lia. f_equal.
    assert (H3 : forall b, rank_spec b (bits_of p len) i = rank_spec b (bits_of p len) len).
    { intros b. unfold rank_spec. rewrite !takeN_all by (rewrite lenN_bits_of; lia). auto. }
    rewrite H3. lia.
  - rewrite H by auto. cbn [bind]. rewrite sub_ok by lia. f_equal. lia.
Qed.
Theorem C27_select k : sp_select1 s k = Ok (select_spec true (bits_of p len) k).
Proof using Hp Hlen H64 Hw E.
  destruct sp_parts as [Ee El]. unfold sp_select1.
  destruct (C21_get p w (sp_vec s) k (increasing_nondecreasing p Hp) p_words Hw Ee) as [-> _]. cbn [bind].
  unfold select_spec. rewrite positions_bits_of, lenN_bits_of, El; auto using In_lt.
Qed.
Theorem C27_iter1 ops : lenN p < 2 ^ 64 -> skips_inside true true (positions true (bits_of p len)) ops ->
  exists it, sp_iter1 s = Ok it /\
    iter_run (ei_step (sp_vec s)) it ops = Ok (iter_spec_run (positions true (bits_of p len)) ops).
Proof using Hp Hlen H64 Hw E.
  destruct sp_parts as [Ee El]. rewrite positions_bits_of by auto using In_lt. intros Hn Hs.
  now apply (C26_iter p w (sp_vec s) (increasing_nondecreasing p Hp) p_words Hw Ee Hn).
Qed.

(** ** C55: the unchecked accessors, from the first listed position on. *)
Theorem C55_get_unchecked_partial i :
  i < len -> match p with x :: _ => x <= i | [] => False end ->
  sp_is_set_unchecked s i = Ok (nthN false (bits_of p len) i) /\
  sp_get_unchecked s i = Ok (bitN (nthN false (bits_of p len) i)).
Proof using Hp Hlen H64 Hw E.
  intros Hi H0. destruct sp_parts as [Ee El].
  assert (H : sp_is_set_unchecked s i = Ok (nthN false (bits_of p len) i)); [|unfold sp_get_unchecked; rewrite H; auto].
  destruct (C27_get i) as [H _]; [lia|]. rewrite (getN_ok false) in H by (rewrite lenN_bits_of; auto).
  unfold sp_is_set in H. rewrite El in H. destruct (N.leb_spec len i); [lia|].
  unfold ef_predecessor in H. unfold sp_is_set_unchecked.
  destruct (ef_built p w (sp_vec s) (increasing_nondecreasing p Hp) p_words Hw Ee) as [(Ep & _)|[Hne G]].
  { destruct p; [destruct H0|discriminate]. }
  rewrite (eg_zero _ _ _ G), (eg_n _ _ _ G) in H.
  assert (Hp0 : nthN 0 p 0 <= i) by (destruct p; [destruct H0|exact H0]).
  destruct (N.ltb_spec i (nthN 0 p 0)); [lia|]. destruct (N.eqb_spec (lenN p) 0); [lia|]. cbn [orb] in H.
  destruct (ef_predecessor_unchecked (sp_vec s) i) as [x| |]; cbn [bind] in *; try discriminate.
  injection H as H. now rewrite H.
Qed.

(** ** C69: the exact contract, with the panics. *)
Theorem C69_get_unchecked i : i < len ->
  sp_is_set_unchecked s i =
    (if existsb (fun x => x <=? i) p then Ok (nthN false (bits_of p len) i) else Panic) /\
  sp_get_unchecked s i =
    (if existsb (fun x => x <=? i) p then Ok (bitN (nthN false (bits_of p len) i)) else Panic).
Proof using Hp Hlen H64 Hw E.
  intros Hi. destruct (existsb (fun x => x <=? i) p) eqn:Ex.
  - apply C55_get_unchecked_partial; auto. apply existsb_exists in Ex as (x & Hx & Hle). apply N.leb_le in Hle.
    destruct p as [|a q]; [destruct Hx|]. apply increasing_cons in Hp as [_ Ha]. destruct Hx as [->|Hx]; auto.
    specialize (Ha x Hx). lia.
  - assert (H : sp_is_set_unchecked s i = Panic); [|unfold sp_get_unchecked; rewrite H; auto].
    destruct sp_parts as [Ee El]. unfold sp_is_set_unchecked, ef_predecessor_unchecked.
    destruct (ef_built p w (sp_vec s) (increasing_nondecreasing p Hp) p_words Hw Ee) as [(Ep & _)|[Hne G]].
    + subst p. unfold ef_from_slice in Ee. cbn in Ee. injection Ee as <-. cbn [ef_max ef_n ef_zero ef_w ef_upper].
      destruct (N.ltb_spec 0 i) as [Hc|Hc]; [reflexivity|]. assert (i = 0) as -> by lia. reflexivity.
    + assert (H0 : i < nthN 0 p 0).
      { destruct p as [|a q]; [change (lenN (@nil N)) with 0 in Hne; lia|]. cbn in Ex. apply orb_false_iff in Ex as [Ex _].
        apply N.leb_gt in Ex. exact Ex. }
      rewrite (eg_zero _ _ _ G). destruct (N.ltb_spec (ef_max (sp_vec s)) i) as [Hc|Hc].
      * rewrite (eg_max _ _ _ G) in Hc.
        pose proof (nondecreasing_nth p (increasing_nondecreasing p Hp) 0 (lenN p - 1) ltac:(lia) ltac:(lia)). lia.
      * unfold sub. destruct (N.leb_spec (nthN 0 p 0) i); [lia|]. reflexivity.
Qed.
End Sparse.

(** *** Construction from bit vectors. *)
Lemma gi_drain_ok {A} (l : list A) get : lenN l < U64 -> (forall i, i < lenN l -> get i = Ok (getN l i)) ->
  forall fuel it v, gi_R l it v -> (length v < fuel)%nat -> gi_drain fuel get it = Ok v.
Proof.
  intros Hl Hg. induction fuel as [|fuel IH]; intros it v R Hf; [lia|]. cbn [gi_drain].
  destruct (gi_next_ok l get (fun i => match getN l i with Some x => Ok x | None => Panic end) Hl Hg) with (it := it) (w := v)
    as (it' & E & R'); auto.
  { intros i x Hx. now rewrite Hx. }
  rewrite E. cbn [bind]. destruct v as [|x v]; [reflexivity|]. change (getN (x :: v) 0) with (Some x). cbn iota beta.
  change (dropN 1 (x :: v)) with v in R'. rewrite (IH it' v); auto. cbn in Hf. lia.
Qed.
Lemma enum_filter b (l : list bool) : forall i,
  map fst (filter (fun p => snd p =? bitN b) (combine (range i (i + lenN l)) (map bitN l))) = positions_from b i l.
Proof.
  induction l as [|a l IH]; intros i; [now rewrite combine_nil|].
  rewrite lenN_cons. rewrite range_cons by lia. cbn [map combine filter snd positions_from].
  replace (i + (lenN l + 1)) with (i + 1 + lenN l) by lia. specialize (IH (i + 1)).
  replace (bitN a =? bitN b) with (Bool.eqb a b) by (now destruct a, b).
  destruct (Bool.eqb a b); cbn [map fst]; now rewrite IH.
Qed.
Lemma sp_positions_ok b bv : wf bv -> lenN (bits bv) < 2 ^ 64 -> sp_positions (bitN b) bv = Ok (positions b (bits bv)).
Proof.
  intros H Hl. unfold sp_positions.
  rewrite (gi_drain_ok (map bitN (bits bv))) with (v := map bitN (bits bv)).
  - cbn [bind]. rewrite lenN_map. f_equal. apply (enum_filter b (bits bv) 0).
  - now rewrite lenN_map.
  - intros. now apply bv_getter.
  - destruct (gi_new_inv (lenN (bits bv))) as (I & Hi & Hr).
    unfold bv_length, gi_R. rewrite <- lenN_bits, lenN_map. split; auto. rewrite Hi, Hr.
    rewrite <- (lenN_map bitN (bits bv)). now rewrite sliceN_all.
  - rewrite map_length. unfold bv_length. rewrite <- lenN_bits. unfold lenN. lia.
Qed.

Theorem C27_from_bitvec bv w : wf bv -> lenN (bits bv) < 2 ^ 64 -> w < 64 ->
  let len := lenN (bits bv) in
  (sp_from_bitvec w bv = sp_new w (positions true (bits bv)) len /\ bits_of (positions true (bits bv)) len = bits bv) /\
  (sp_from_bitvec_inverted w bv = sp_new w (positions false (bits bv)) len /\
   bits_of (positions false (bits bv)) len = map negb (bits bv)) /\
  sp_from w bv = sp_from_bitvec_inverted w bv.
Proof.
  intros H Hl Hw len. unfold sp_from, sp_from_bitvec, sp_from_bitvec_inverted.
  change 1 with (bitN true). change 0 with (bitN false). rewrite !sp_positions_ok by auto. cbn [bind].
  subst len. unfold bv_length. rewrite <- lenN_bits. rewrite !bits_of_positions. repeat split; auto.
  rewrite <- (map_id (bits bv)) at 2. apply map_ext. now intros [].
Qed.

Definition ex_sp : list N := [3; 4; 9; 64].
Definition ex_spv : sparse := match sp_new 3 ex_sp 70 with Ok s => s | _ => mksp ef_dummy 0 end.
Example C27_ex :
  increasing ex_sp /\ Forall (fun x => x < 70) ex_sp /\ sp_new 3 ex_sp 70 = Ok ex_spv /\
  sp_get ex_spv 9 = Ok (Some 1) /\ sp_get ex_spv 10 = Ok (Some 0) /\ sp_get ex_spv 0 = Ok (Some 0) /\
  sp_get ex_spv 70 = Ok None /\ sp_rank1 ex_spv 9 = Ok 2 /\ sp_rank0 ex_spv 9 = Ok 7 /\ sp_rank0 ex_spv 1000 = Ok 66 /\
  sp_select1 ex_spv 3 = Ok 64 /\ sp_select1 ex_spv 4 = Ok 70.
Proof.
  split.
  { unfold ex_sp. repeat (apply increasing_cons; split; [|intros y Hy; cbn in Hy; lia]). apply increasing_nil. }
  split; [repeat constructor|]. vm_compute. repeat split.
Qed.

(** [SparseRSVec::from(bv)] does not represent [bv] but its complement. *)
Theorem C27_from_refuted :
  exists bv s, wf bv /\ bits bv = [true; false] /\ sp_from 0 bv = Ok s /\
    sp_get s 0 = Ok (Some 0) /\ sp_get s 1 = Ok (Some 1).
Proof.
  set (s := match sp_from 0 (mkbv [1] 2) with Ok s => s | _ => mksp ef_dummy 0 end).
  exists (mkbv [1] 2), s. split; [split; [reflexivity|repeat constructor]|]. vm_compute. auto.
Qed.

Example C55_ex :
  sp_get_unchecked ex_spv 3 = Ok 1 /\ sp_get_unchecked ex_spv 63 = Ok 0 /\ sp_get_unchecked ex_spv 64 = Ok 1 /\
  sp_get_unchecked ex_spv 69 = Ok 0.
Proof. vm_compute. auto. Qed.
Example C69_ex :
  sp_get_unchecked ex_spv 0 = Panic /\ sp_get_unchecked ex_spv 2 = Panic /\ sp_get_unchecked ex_spv 3 = Ok 1 /\
  sp_is_set_unchecked ex_spv 5 = Ok false.
Proof. vm_compute. auto. Qed.
(** Left of the first set bit, and in vectors without set bits, the unchecked accessors panic on
    positions inside the vector. *)
Theorem C55_get_unchecked_refuted :
  (exists p len w s i, increasing p /\ Forall (fun x => x < len) p /\ sp_new w p len = Ok s /\ i < len /\
     sp_get s i = Ok (Some 0) /\ sp_get_unchecked s i = Panic) /\
  (exists s, sp_new 0 [] 5 = Ok s /\ sp_get s 2 = Ok (Some 0) /\ sp_get_unchecked s 2 = Panic).
Proof.
  split.
  - exists ex_sp, 70, 3, ex_spv, 2. destruct C27_ex as (H1 & H2 & _). split; auto. split; auto. vm_compute. auto.
  - set (s := match sp_new 0 [] 5 with Ok s => s | _ => mksp ef_dummy 0 end). exists s. vm_compute. auto.
Qed.
