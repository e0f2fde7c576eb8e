(** * Proofs about the [BitVec] model. *)
From Verif Require Import Base Spec BaseFacts WordFacts BitVecModel.

(** ** Abstraction *)
(** Bit [i] of a limb vector. *)
Definition bit_at (d : list N) (i : N) : bool := N.testbit (nthN 0 d (i / 64)) (i mod 64).

(** The bits of a bit vector, as a list. *)
Definition bits (bv : bitvec) : list bool := bools (bit_at (bdata bv)) (blen bv).

Definition words (d : list N) : Prop := Forall (fun w => w < U64) d.

(** Representation invariant: just enough limbs, each a 64-bit word. The bits of the last limb
    above the length are arbitrary. *)
Definition wf (bv : bitvec) : Prop :=
  lenN (bdata bv) = (blen bv + 63) / 64 /\ words (bdata bv).

Lemma lenN_bits bv : lenN (bits bv) = blen bv.
Proof. apply lenN_bools. Qed.
Lemma nthN_bits d bv i : i < blen bv -> nthN d (bits bv) i = bit_at (bdata bv) i.
Proof. apply nthN_bools. Qed.

Lemma words_nth d i : words d -> nthN 0 d i < U64.
Proof.
  intros H. destruct (N.lt_ge_cases i (lenN d)) as [L|L].
  - apply (Forall_nthN (fun w => w < U64)); auto.
  - rewrite nthN_overflow by auto. reflexivity.
Qed.
Lemma words_app d e : words d -> words e -> words (d ++ e).
Proof. intros. apply Forall_app. auto. Qed.
Lemma words_one w : w < U64 -> words [w].
Proof. intros. repeat constructor; auto. Qed.
Lemma words_set d i w : words d -> w < U64 -> words (set_nth d i w).
Proof. intros. now apply Forall_set_nth. Qed.
Lemma words_firstn d n : words d -> words (firstn n d).
Proof.
  intros H. apply Forall_forall. intros x Hx. unfold words in H. rewrite Forall_forall in H.
  apply H. rewrite <- (firstn_skipn n d). apply in_or_app. now left.
Qed.
#[export] Hint Resolve words_nth words_app words_one words_set words_firstn
  lor_lt land_lt lxor_lt shl64_lt not64_lt shiftr_lt : words.

Lemma upd_limb_ok d i f :
  i < lenN d -> upd_limb d i f = Ok (set_nth d (N.to_nat i) (f (nthN 0 d i))).
Proof.
  intros H. unfold upd_limb. rewrite (idx_ok 0) by auto. cbn [bind]. now apply set_idx_ok.
Qed.

Lemma bit_at_set d q w i :
  q < lenN d -> bit_at (set_nth d (N.to_nat q) w) i =
    if i / 64 =? q then N.testbit w (i mod 64) else bit_at d i.
Proof.
  intros. unfold bit_at. rewrite nthN_set_nth by auto. now destruct (i / 64 =? q).
Qed.
Lemma bit_at_app d e i :
  bit_at (d ++ e) i = if i / 64 <? lenN d then bit_at d i else bit_at e (i - 64 * lenN d).
Proof.
  unfold bit_at. rewrite nthN_app. destruct (N.ltb_spec (i / 64) (lenN d)); [reflexivity|].
  replace ((i - 64 * lenN d) / 64) with (i / 64 - lenN d) by dlia.
  replace ((i - 64 * lenN d) mod 64) with (i mod 64) by dlia. reflexivity.
Qed.
Lemma bit_at_one w i : i < 64 -> bit_at [w] i = N.testbit w i.
Proof.
  intros. unfold bit_at. replace (i / 64) with 0 by dlia. replace (i mod 64) with i by dlia.
  reflexivity.
Qed.

Lemma bits_ext a b :
  blen a = blen b -> (forall i, i < blen a -> bit_at (bdata a) i = bit_at (bdata b) i) ->
  bits a = bits b.
Proof. intros E H. unfold bits. rewrite <- E. now apply bools_ext. Qed.

Lemma bits_app_intro bv bv' f m :
  blen bv' = blen bv + m ->
  (forall i, i < blen bv -> bit_at (bdata bv') i = bit_at (bdata bv) i) ->
  (forall i, i < m -> bit_at (bdata bv') (blen bv + i) = f i) ->
  bits bv' = bits bv ++ bools f m.
Proof.
  intros E H1 H2. unfold bits. rewrite E, bools_app. f_equal; apply bools_ext; auto.
Qed.

(** ** get *)
Lemma bv_get_unchecked_ok bv p :
  wf bv -> p < blen bv -> bv_get_unchecked bv p = Ok (bitN (bit_at (bdata bv) p)).
Proof.
  intros [Hl _] Hp. unfold bv_get_unchecked. rewrite (idx_ok 0) by (rewrite Hl; dlia).
  cbn [bind]. now rewrite shiftr_land_1.
Qed.

Lemma bv_get_spec bv p :
  wf bv -> bv_get bv p = Ok (option_map bitN (getN (bits bv) p)).
Proof.
  intros H. unfold bv_get. destruct (N.leb_spec (blen bv) p).
  - rewrite getN_none by (rewrite lenN_bits; auto). reflexivity.
  - rewrite bv_get_unchecked_ok by auto. cbn [bind].
    rewrite (getN_ok false) by (rewrite lenN_bits; auto). rewrite nthN_bits by auto. reflexivity.
Qed.

Lemma bv_is_bit_set_spec bv p :
  wf bv -> bv_is_bit_set bv p = Ok (getN (bits bv) p).
Proof.
  intros H. unfold bv_is_bit_set, bv_is_bit_set_unchecked. destruct (N.leb_spec (blen bv) p).
  - rewrite getN_none by (rewrite lenN_bits; auto). reflexivity.
  - rewrite bv_get_unchecked_ok by auto. cbn [bind].
    rewrite (getN_ok false) by (rewrite lenN_bits; auto). rewrite nthN_bits by auto.
    now destruct (bit_at (bdata bv) p).
Qed.

(** ** Appending *)
Lemma bv_append_bit_core bv (b : bool) :
  wf bv ->
  exists bv',
    (let d := if blen bv mod 64 =? 0 then bdata bv ++ [0] else bdata bv in
     let* d' := if b
                then upd_limb d (blen bv / 64) (fun w => N.lor w (shl64 1 (blen bv mod 64)))
                else upd_limb d (blen bv / 64) (fun w => N.land w (not64 (shl64 1 (blen bv mod 64)))) in
     Ok (mkbv d' (blen bv + 1))) = Ok bv' /\ wf bv' /\ bits bv' = bits bv ++ [b].
Proof.
  intros [Hl Hw]. set (d := if blen bv mod 64 =? 0 then bdata bv ++ [0] else bdata bv).
  cbv zeta.
  assert (Hd : lenN d = blen bv / 64 + 1).
  { unfold d. destruct (N.eqb_spec (blen bv mod 64) 0); rewrite ?lenN_app, Hl; [cbn|]; dlia. }
  assert (Hwd : words d).
  { unfold d. destruct (_ =? _); auto. apply words_app; auto. apply words_one. reflexivity. }
  assert (Hbit : forall i, i < blen bv -> bit_at d i = bit_at (bdata bv) i).
  { intros i Hi. unfold d. destruct (_ =? _) eqn:E; auto. rewrite bit_at_app.
    destruct (N.ltb_spec (i / 64) (lenN (bdata bv))); auto. dlia. }
  set (q := blen bv / 64) in *. set (off := blen bv mod 64) in *.
  assert (Hoff : off < 64) by (unfold off; dlia).
  set (w' := if b then N.lor (nthN 0 d q) (shl64 1 off)
             else N.land (nthN 0 d q) (not64 (shl64 1 off))).
  assert (Hw' : w' < U64) by (unfold w'; destruct b; auto with words).
  assert (Hw's : forall j, j <= off -> N.testbit w' j = if j =? off then b else N.testbit (nthN 0 d q) j).
  { intros j Hj. unfold w'.
    destruct b; rewrite ?N.lor_spec, ?N.land_spec, ?not64_spec, shl64_1_spec by auto;
      destruct (N.eqb_spec j off), (N.ltb_spec j 64); try lia; cbn;
      rewrite ?orb_true_r, ?orb_false_r, ?andb_true_r, ?andb_false_r; auto. }
  exists (mkbv (set_nth d (N.to_nat q) w') (blen bv + 1)).
  split; [|split].
  - destruct b; rewrite upd_limb_ok by lia; reflexivity.
  - split; cbn [bdata blen].
    + rewrite lenN_set_nth, Hd. unfold q. dlia.
    + auto with words.
  - change [b] with (bools (fun _ => b) 1). apply bits_app_intro; cbn [bdata blen]; auto.
    + intros i Hi. rewrite bit_at_set by lia. rewrite <- Hbit by auto.
      destruct (N.eqb_spec (i / 64) q) as [E|E]; auto.
      unfold bit_at. rewrite E, Hw's by (unfold off, q in *; dlia).
      destruct (N.eqb_spec (i mod 64) off); auto. unfold off, q in *. dlia.
    + intros i Hi. assert (i = 0) by lia. subst i. rewrite N.add_0_r, bit_at_set by lia.
      fold q. rewrite N.eqb_refl. fold off. rewrite Hw's by lia. now rewrite N.eqb_refl.
Qed.

Lemma bv_append_ok bv b :
  wf bv -> exists bv', bv_append bv b = Ok bv' /\ wf bv' /\ bits bv' = bits bv ++ [b].
Proof. apply bv_append_bit_core. Qed.

Lemma bv_append_bit_ok bv w :
  wf bv -> exists bv', bv_append_bit bv w = Ok bv' /\ wf bv' /\ bits bv' = bits bv ++ [N.testbit w 0].
Proof.
  intros H. unfold bv_append_bit. rewrite mod2_bit.
  destruct (bv_append_bit_core bv (N.testbit w 0) H) as (bv' & E & H').
  exists bv'. split; auto. rewrite <- E. now destruct (N.testbit w 0).
Qed.

(** Appending [n >= 1] bits given as a word: the common result of the aligned/unaligned cases. *)
Lemma append_aligned bv w n :
  wf bv -> w < U64 -> blen bv mod 64 = 0 -> 1 <= n -> n <= 64 ->
  let bv' := mkbv (bdata bv ++ [w]) (blen bv + n) in
  wf bv' /\ bits bv' = bits bv ++ lowbits w n.
Proof.
  intros [Hl Hw] Hww Hoff H1 H64 bv'. subst bv'. split; [split|]; cbn [bdata blen].
  - rewrite lenN_app, Hl. cbn. dlia.
  - auto with words.
  - unfold lowbits. apply bits_app_intro; cbn [bdata blen]; auto.
    + intros i Hi. rewrite bit_at_app. destruct (N.ltb_spec (i / 64) (lenN (bdata bv))); auto. dlia.
    + intros i Hi. rewrite bit_at_app. destruct (N.ltb_spec ((blen bv + i) / 64) (lenN (bdata bv))); [dlia|].
      replace (blen bv + i - 64 * lenN (bdata bv)) with i by dlia. apply bit_at_one. lia.
Qed.

Lemma append_unaligned bv w n d1 w1 :
  wf bv -> w < U64 -> blen bv mod 64 <> 0 -> n <= 64 -> w1 < U64 ->
  d1 = set_nth (bdata bv) (N.to_nat (blen bv / 64)) w1 ->
  (forall j, j < 64 -> N.testbit w1 j =
     if j <? blen bv mod 64 then N.testbit (nthN 0 (bdata bv) (blen bv / 64)) j
     else N.testbit w (j - blen bv mod 64)) ->
  let bv' := mkbv (if 64 <? blen bv mod 64 + n
                   then d1 ++ [N.shiftr w (64 - blen bv mod 64)] else d1) (blen bv + n) in
  wf bv' /\ bits bv' = bits bv ++ lowbits w n.
Proof.
  intros [Hl Hw] Hww Hoff H64 Hw1 -> Hb bv'. subst bv'. set (q := blen bv / 64) in *.
  assert (Hq : q < lenN (bdata bv)) by (rewrite Hl; unfold q; dlia).
  split; [split|]; cbn [bdata blen].
  - destruct (N.ltb_spec 64 (blen bv mod 64 + n)); rewrite ?lenN_app, lenN_set_nth, Hl; [cbn|]; dlia.
  - destruct (N.ltb_spec 64 (blen bv mod 64 + n)); auto with words.
  - assert (Hset : forall i, bit_at (set_nth (bdata bv) (N.to_nat q) w1) i =
       if i / 64 =? q then if i mod 64 <? blen bv mod 64 then bit_at (bdata bv) i
                           else N.testbit w (i mod 64 - blen bv mod 64)
       else bit_at (bdata bv) i).
    { intros i. rewrite bit_at_set by auto. destruct (N.eqb_spec (i / 64) q) as [E|E]; auto.
      rewrite Hb by dlia. unfold bit_at. rewrite E. reflexivity. }
    unfold lowbits. apply bits_app_intro; cbn [bdata blen]; auto.
    + intros i Hi.
      assert (H1 : bit_at (set_nth (bdata bv) (N.to_nat q) w1) i = bit_at (bdata bv) i).
      { rewrite Hset. destruct (N.eqb_spec (i / 64) q); auto.
        destruct (N.ltb_spec (i mod 64) (blen bv mod 64)); auto. unfold q in *. dlia. }
      destruct (N.ltb_spec 64 (blen bv mod 64 + n)); auto.
      rewrite bit_at_app, lenN_set_nth. destruct (N.ltb_spec (i / 64) (lenN (bdata bv))); auto. dlia.
    + intros i Hi.
      assert (H1 : blen bv mod 64 + i < 64 ->
                   bit_at (set_nth (bdata bv) (N.to_nat q) w1) (blen bv + i) = N.testbit w i).
      { intros Hi'. rewrite Hset. destruct (N.eqb_spec ((blen bv + i) / 64) q); [|unfold q in *; dlia].
        destruct (N.ltb_spec ((blen bv + i) mod 64) (blen bv mod 64)); [dlia|]. f_equal. dlia. }
      destruct (N.ltb_spec 64 (blen bv mod 64 + n)).
      * rewrite bit_at_app, lenN_set_nth.
        destruct (N.ltb_spec ((blen bv + i) / 64) (lenN (bdata bv))).
        { apply H1. dlia. }
        replace (blen bv + i - 64 * lenN (bdata bv)) with (blen bv mod 64 + i - 64) by dlia.
        rewrite bit_at_one by dlia. rewrite N.shiftr_spec'. f_equal. dlia.
      * apply H1. lia.
Qed.

Lemma set_nth_twice {A} (l : list A) k a b : set_nth (set_nth l k a) k b = set_nth l k b.
Proof. revert l. induction k; destruct l; cbn; intros; f_equal; auto. Qed.

Lemma append_word_bits x w off j :
  off < 64 -> j < 64 ->
  N.testbit (N.lor (N.land x (not64 (shl64 (U64 - 1) off))) (shl64 w off)) j =
    if j <? off then N.testbit x j else N.testbit w (j - off).
Proof.
  intros Ho Hj. rewrite N.lor_spec, N.land_spec, not64_spec, !shl64_spec, ones64, ones_spec.
  destruct (N.ltb_spec j 64), (N.leb_spec off j), (N.ltb_spec (j - off) 64), (N.ltb_spec j off);
    try lia; cbn; rewrite ?orb_false_r, ?andb_true_r, ?andb_false_r; auto.
Qed.

Lemma bv_append_bits_ok bv w n :
  wf bv -> w < U64 -> 1 <= n -> n <= 64 ->
  exists bv', bv_append_bits bv w n = Ok bv' /\ wf bv' /\ bits bv' = bits bv ++ lowbits w n.
Proof.
  intros H Hw H1 H64. unfold bv_append_bits. rewrite assert_true by lia. cbn [bind].
  destruct (N.eqb_spec (blen bv mod 64) 0) as [E|E].
  - eexists. split; [reflexivity|]. now apply append_aligned.
  - pose proof (proj1 H) as Hl. assert (Hq : blen bv / 64 < lenN (bdata bv)) by (rewrite Hl; dlia).
    rewrite upd_limb_ok by auto. cbn [bind]. rewrite upd_limb_ok by (rewrite lenN_set_nth; auto).
    rewrite nthN_set_nth, N.eqb_refl, set_nth_twice by auto.
    cbn [bind]. eexists. split; [reflexivity|].
    eapply append_unaligned; [exact H|exact Hw|exact E|exact H64| |reflexivity|].
    + destruct H. auto with words.
    + intros j Hj. apply append_word_bits; dlia.
Qed.

Lemma bv_append_bits_unaligned0 bv w :
  wf bv -> w < U64 -> blen bv mod 64 <> 0 ->
  exists bv', bv_append_bits bv w 0 = Ok bv' /\ wf bv' /\ bits bv' = bits bv.
Proof.
  intros H Hw E. unfold bv_append_bits. rewrite assert_true by lia. cbn [bind].
  destruct (N.eqb_spec (blen bv mod 64) 0) as [E'|_]; [lia|].
  pose proof (proj1 H) as Hl. assert (Hq : blen bv / 64 < lenN (bdata bv)) by (rewrite Hl; dlia).
  rewrite upd_limb_ok by auto. cbn [bind]. rewrite upd_limb_ok by (rewrite lenN_set_nth; auto).
  rewrite nthN_set_nth, N.eqb_refl, set_nth_twice by auto.
  cbn [bind]. eexists. split; [reflexivity|].
  rewrite <- (app_nil_r (bits bv)). change (@nil bool) with (lowbits w 0).
  eapply append_unaligned; [exact H|exact Hw|exact E|lia| |reflexivity|].
  - destruct H. auto with words.
  - intros j Hj. apply append_word_bits; dlia.
Qed.

Lemma bv_append_word_ok bv w :
  wf bv -> w < U64 ->
  exists bv', bv_append_word bv w = Ok bv' /\ wf bv' /\ bits bv' = bits bv ++ lowbits w 64.
Proof.
  intros H Hw. destruct (bv_append_bits_ok bv w 64 H Hw) as (bv' & E & H'); try lia.
  exists bv'. split; auto. rewrite <- E. unfold bv_append_word, bv_append_bits.
  rewrite assert_true by reflexivity. cbn [bind].
  destruct (N.eqb_spec (blen bv mod 64) 0); auto.
  destruct (N.ltb_spec 64 (blen bv mod 64 + 64)); [reflexivity|lia].
Qed.

(** The unchecked variant is right when nothing is set above the length. *)
Definition clean (bv : bitvec) : Prop :=
  forall j, blen bv mod 64 <> 0 -> blen bv mod 64 <= j -> j < 64 ->
            N.testbit (nthN 0 (bdata bv) (blen bv / 64)) j = false.

Lemma bv_append_bits_unchecked_ok bv w n :
  wf bv -> clean bv -> w < U64 -> 1 <= n -> n <= 64 ->
  exists bv', bv_append_bits_unchecked bv w n = Ok bv' /\ wf bv' /\ bits bv' = bits bv ++ lowbits w n.
Proof.
  intros H Hc Hw H1 H64. unfold bv_append_bits_unchecked.
  destruct (N.eqb_spec (blen bv mod 64) 0) as [E|E].
  - eexists. split; [reflexivity|]. now apply append_aligned.
  - pose proof (proj1 H) as Hl. assert (Hq : blen bv / 64 < lenN (bdata bv)) by (rewrite Hl; dlia).
    rewrite upd_limb_ok by auto. cbn [bind]. eexists. split; [reflexivity|].
    eapply append_unaligned; [exact H|exact Hw|exact E|exact H64| |reflexivity|].
    + destruct H. auto with words.
    + intros j Hj. rewrite N.lor_spec, shl64_spec.
      destruct (N.ltb_spec j 64), (N.leb_spec (blen bv mod 64) j), (N.ltb_spec j (blen bv mod 64));
        try lia; cbn; rewrite ?orb_false_r; auto. now rewrite Hc.
Qed.

(** ** extend *)
Lemma lowbits_limb d q n : n <= 64 -> lowbits (nthN 0 d q) n = bools (fun i => bit_at d (64 * q + i)) n.
Proof.
  intros. apply bools_ext. intros i Hi. unfold bit_at.
  replace ((64 * q + i) / 64) with q by dlia. replace ((64 * q + i) mod 64) with i by dlia.
  reflexivity.
Qed.

Lemma bv_extend_ok bv o :
  wf bv -> wf o -> exists bv', bv_extend bv o = Ok bv' /\ wf bv' /\ bits bv' = bits bv ++ bits o.
Proof.
  intros H Ho. unfold bv_extend. pose proof (proj1 H) as Hl. pose proof (proj1 Ho) as Hlo.
  rewrite sub_ok by (rewrite Hl; dlia). cbn [bind].
  destruct (forM_range_inv (fun i s => wf s /\ bits s = bits bv ++ bools (bit_at (bdata o)) (64 * i))
              0 (blen o / 64) bv (fun bv i => let* w := idx (bdata o) i in bv_append_bits bv w 64))
    as (s & E & Hs & Hb).
  - lia.
  - split; auto. now rewrite app_nil_r.
  - intros i s _ Hi [Hs Hb]. rewrite (idx_ok 0) by (rewrite Hlo; dlia). cbn [bind].
    destruct (bv_append_bits_ok s (nthN 0 (bdata o) i) 64 Hs) as (s' & E & Hs' & Hb');
      try lia; [apply words_nth, Ho|].
    exists s'. repeat split; auto; try apply Hs'.
    rewrite Hb', Hb, <- app_assoc, lowbits_limb by lia. f_equal.
    replace (64 * (i + 1)) with (64 * i + 64) by lia. now rewrite bools_app.
  - rewrite E. cbn [bind]. destruct (N.ltb_spec 0 (blen o mod 64)).
    + rewrite (idx_ok 0) by (rewrite Hlo; dlia). cbn [bind].
      destruct (bv_append_bits_ok s (nthN 0 (bdata o) (blen o / 64)) (blen o mod 64) Hs)
        as (s' & E' & Hs' & Hb'); try dlia; [apply words_nth, Ho|].
      exists s'. repeat split; auto; try apply Hs'.
      rewrite Hb', Hb, <- app_assoc, lowbits_limb by dlia. f_equal. unfold bits.
      rewrite <- bools_app. f_equal. dlia.
    + exists s. repeat split; auto; try apply Hs. rewrite Hb. f_equal. unfold bits. f_equal. dlia.
Qed.

(** ** drop_last *)
Lemma nthN_firstn {A} (d : A) n l i : i < n -> nthN d (firstn (N.to_nat n) l) i = nthN d l i.
Proof. apply nthN_takeN. Qed.

Lemma bv_drop_last_ok bv n :
  wf bv -> exists bv', bv_drop_last bv n = Ok bv' /\ wf bv' /\ bits bv' = takeN (blen bv - n) (bits bv).
Proof.
  intros [Hl Hw]. unfold bv_drop_last. destruct (N.ltb_spec (blen bv) n).
  - exists (mkbv [] 0). replace (blen bv - n) with 0 by lia. repeat split; auto. constructor.
  - rewrite sub_ok by auto. cbn [bind]. eexists. split; [reflexivity|].
    destruct (N.ltb_spec ((blen bv - n + 63) / 64) (lenN (bdata bv))).
    + split; [split|]; cbn [bdata blen].
      * fold (@takeN N ((blen bv - n + 63) / 64) (bdata bv)). rewrite lenN_takeN. lia.
      * auto with words.
      * unfold bits at 2. rewrite takeN_bools by lia. unfold bits. cbn [bdata blen].
        apply bools_ext. intros i Hi. unfold bit_at. rewrite nthN_firstn by dlia. reflexivity.
    + split; [split|]; cbn [bdata blen]; auto.
      * dlia.
      * unfold bits at 2. now rewrite takeN_bools by lia.
Qed.

(** ** set / flip *)
Fixpoint list_set {A} (l : list A) (n : nat) (v : A) : list A :=
  match l, n with
  | [], _ => []
  | _ :: r, O => v :: r
  | x :: r, S n => x :: list_set r n v
  end.
Lemma list_set_nth {A} (l : list A) n v : list_set l n v = set_nth l n v.
Proof. revert n. induction l; destruct n; cbn; f_equal; auto. Qed.

Lemma bits_upd bv p w b :
  wf bv -> p < blen bv -> w < U64 ->
  (forall j, j < 64 -> N.testbit w j = if j =? p mod 64 then b
                                      else N.testbit (nthN 0 (bdata bv) (p / 64)) j) ->
  let bv' := mkbv (set_nth (bdata bv) (N.to_nat (p / 64)) w) (blen bv) in
  wf bv' /\ bits bv' = set_nth (bits bv) (N.to_nat p) b.
Proof.
  intros [Hl Hw] Hp Hww Hb bv'. subst bv'. assert (Hq : p / 64 < lenN (bdata bv)) by (rewrite Hl; dlia).
  split; [split|]; cbn [bdata blen].
  - now rewrite lenN_set_nth.
  - auto with words.
  - apply list_ext with (d := false).
    + rewrite lenN_set_nth, !lenN_bits. reflexivity.
    + intros i Hi. rewrite lenN_bits in Hi. cbn [blen] in Hi.
      rewrite nthN_set_nth by (rewrite lenN_bits; auto). rewrite !nthN_bits by auto.
      cbn [bdata]. rewrite bit_at_set by auto.
      destruct (N.eqb_spec (i / 64) (p / 64)) as [E|E].
      * rewrite Hb by dlia. destruct (N.eqb_spec (i mod 64) (p mod 64)), (N.eqb_spec i p); try dlia; auto.
        unfold bit_at. now rewrite E.
      * destruct (N.eqb_spec i p); auto. subst. lia.
Qed.

Lemma bv_set_ok bv p v :
  wf bv -> p < blen bv ->
  exists bv', bv_set bv p v = Ok (Some bv') /\ wf bv' /\
              bits bv' = set_nth (bits bv) (N.to_nat p) (N.testbit v 0).
Proof.
  intros H Hp. unfold bv_set, bv_set_unchecked. destruct (N.leb_spec (blen bv) p); [lia|].
  rewrite upd_limb_ok by (rewrite (proj1 H); dlia). cbn [bind]. eexists. split; [reflexivity|].
  apply bits_upd; auto.
  - destruct H; auto with words.
  - intros j Hj. rewrite N.lor_spec, N.land_spec, not64_spec, shl64_1_spec by dlia.
    rewrite land_1, shl64_spec.
    destruct (N.ltb_spec j 64), (N.eqb_spec j (p mod 64)), (N.leb_spec (p mod 64) j); try lia;
      cbn; rewrite ?andb_false_r, ?orb_false_r, ?andb_true_r; auto.
    + subst. rewrite N.sub_diag. now destruct (N.testbit v 0).
    + destruct (N.testbit v 0); cbn [bitN]; rewrite ?N.bits_0, ?testbit_1.
      * destruct (N.eqb_spec (j - p mod 64) 0); [lia|]. now rewrite orb_false_r.
      * now rewrite orb_false_r.
Qed.
Lemma bv_set_err bv p v : blen bv <= p -> bv_set bv p v = Ok None.
Proof. intros. unfold bv_set. destruct (N.leb_spec (blen bv) p); [reflexivity|lia]. Qed.

Lemma bv_flip_ok bv p :
  wf bv -> p < blen bv ->
  exists bv', bv_flip_bit bv p = Ok bv' /\ wf bv' /\
              bits bv' = set_nth (bits bv) (N.to_nat p) (negb (nthN false (bits bv) p)).
Proof.
  intros H Hp. unfold bv_flip_bit, bv_flip_bit_unchecked. rewrite assert_true by lia. cbn [bind].
  rewrite upd_limb_ok by (rewrite (proj1 H); dlia). cbn [bind]. eexists. split; [reflexivity|].
  apply bits_upd; auto.
  - destruct H; auto with words.
  - intros j Hj. rewrite N.lxor_spec, shl64_1_spec by dlia. rewrite nthN_bits by auto.
    destruct (N.eqb_spec j (p mod 64)); [subst; apply xorb_true_r|apply xorb_false_r].
Qed.
Lemma bv_flip_panic bv p : blen bv <= p -> bv_flip_bit bv p = Panic.
Proof. intros. unfold bv_flip_bit, assert. destruct (N.ltb_spec p (blen bv)); [lia|reflexivity]. Qed.

(** ** get_bits *)
Lemma limbs_get_bits_ok d pos n :
  words d -> 1 <= n -> n <= 64 -> (pos + n + 63) / 64 <= lenN d ->
  limbs_get_bits_unchecked d pos n = Ok (value (bools (fun i => bit_at d (pos + i)) n)).
Proof.
  intros Hw H1 H64 Hl. unfold limbs_get_bits_unchecked. rewrite assert_true by lia. cbn [bind].
  rewrite (idx_ok 0) by dlia. cbn [bind].
  destruct (N.leb_spec (pos mod 64 + n) 64).
  - f_equal. symmetry. apply value_bools. intros i.
    rewrite N.land_spec, wrapmask_spec, N.shiftr_spec' by auto.
    destruct (N.ltb_spec i n); [|apply andb_false_r]. rewrite andb_true_r. cbn.
    unfold bit_at. f_equal; [f_equal|]; dlia.
  - rewrite (idx_ok 0) by dlia. cbn [bind]. unfold shl64_chk.
    destruct (N.ltb_spec (64 - pos mod 64) 64); [|dlia]. cbn [bind].
    f_equal. symmetry. apply value_bools. intros i.
    rewrite N.land_spec, wrapmask_spec, N.lor_spec, N.shiftr_spec', shl64_spec by auto.
    destruct (N.ltb_spec i n); [|apply andb_false_r]. rewrite andb_true_r. cbn.
    destruct (N.ltb_spec i 64); [|lia].
    destruct (N.leb_spec (64 - pos mod 64) i); cbn [andb].
    + rewrite testbit_U64_high; [|auto with words|lia]. cbn.
      unfold bit_at. f_equal; [f_equal|]; dlia.
    + rewrite orb_false_r. unfold bit_at. f_equal; [f_equal|]; dlia.
Qed.

Lemma sliceN_bools f m a n : a + n <= m -> sliceN a n (bools f m) = bools (fun i => f (a + i)) n.
Proof. intros. unfold sliceN. rewrite dropN_bools by lia. now rewrite takeN_bools by lia. Qed.

Lemma bv_get_bits_unchecked_ok bv pos n :
  wf bv -> 1 <= n -> n <= 64 -> pos + n <= blen bv ->
  bv_get_bits_unchecked bv pos n = Ok (value (sliceN pos n (bits bv))).
Proof.
  intros [Hl Hw] H1 H64 Hp. unfold bv_get_bits_unchecked. rewrite limbs_get_bits_ok; auto.
  - unfold bits. now rewrite sliceN_bools.
  - rewrite Hl. dlia.
Qed.

Lemma bv_get_bits_spec bv pos n :
  wf bv -> pos + n < U64 ->
  bv_get_bits bv pos n = Ok (if (1 <=? n) && (n <=? 64) && (pos + n <=? blen bv)
                             then Some (value (sliceN pos n (bits bv))) else None).
Proof.
  intros H Ho. unfold bv_get_bits.
  destruct (N.ltb_spec 64 n), (N.eqb_spec n 0), (N.leb_spec 1 n), (N.leb_spec n 64); try lia; cbn; auto.
  rewrite add64_ok by auto. cbn [bind].
  destruct (N.ltb_spec (blen bv) (pos + n)), (N.leb_spec (pos + n) (blen bv)); try lia; auto.
  now rewrite bv_get_bits_unchecked_ok.
Qed.

(** ** count_ones *)
Lemma sumN_app a b : sumN (a ++ b) = sumN a + sumN b.
Proof. unfold sumN. induction a; cbn [app fold_right]; [reflexivity|]. rewrite IHa. lia. Qed.

Lemma sum_popcount d k :
  words d -> k <= lenN d -> sumN (map popcount (takeN k d)) = cnt (bit_at d) (64 * k).
Proof.
  intros Hw. induction k as [|k IH] using N_ind1; intros Hk; [reflexivity|].
  rewrite (takeN_succ 0) by lia. rewrite map_app, sumN_app, IH by lia.
  replace (64 * (k + 1)) with (64 * k + 64) by lia. rewrite cnt_add. f_equal.
  cbn [map sumN fold_right]. rewrite N.add_0_r, popcount64 by auto with words. apply cnt_ext. intros i Hi.
  unfold bit_at. f_equal; [f_equal|]; dlia.
Qed.

Lemma last_chk_ok {A} (d : A) l : 0 < lenN l -> last_chk l = Ok (nthN d l (lenN l - 1)).
Proof.
  intros H. unfold last_chk. destruct (rev l) as [|x r] eqn:E.
  - apply (f_equal lenN) in E. rewrite lenN_rev in E. cbn in E. lia.
  - f_equal. assert (l = rev r ++ [x]) by (rewrite <- (rev_involutive l), E; reflexivity). subst l.
    rewrite lenN_app. cbn. rewrite nthN_app.
    destruct (N.ltb_spec (lenN (rev r) + 1 - 1) (lenN (rev r))); [lia|].
    replace (lenN (rev r) + 1 - 1 - lenN (rev r)) with 0 by lia. reflexivity.
Qed.

Lemma count_bits_true bv : count true (bits bv) = cnt (bit_at (bdata bv)) (blen bv).
Proof. unfold bits. rewrite count_bools. apply cnt_eqb_true. Qed.

Lemma bv_count_ones_ok bv : wf bv -> bv_count_ones bv = Ok (count true (bits bv)).
Proof.
  intros [Hl Hw]. unfold bv_count_ones. rewrite slice_chk_ok by (rewrite ?Hl; dlia). cbn [bind].
  unfold sliceN. rewrite dropN_0, N.sub_0_r, sum_popcount by (auto; rewrite Hl; dlia).
  rewrite count_bits_true. destruct (N.eqb_spec (blen bv mod 64) 0).
  - f_equal. f_equal. dlia.
  - rewrite (last_chk_ok 0) by (rewrite Hl; dlia). cbn [bind]. f_equal.
    rewrite lowmask_ones, popcount_land_low by (auto with words; dlia).
    transitivity (cnt (bit_at (bdata bv)) (64 * (blen bv / 64) + blen bv mod 64)); [|f_equal; dlia].
    rewrite cnt_add. f_equal. apply cnt_ext. intros i Hi. unfold bit_at.
    f_equal; [f_equal|]; rewrite ?Hl; dlia.
Qed.

Lemma bv_count_zeros_ok bv : wf bv -> bv_count_zeros bv = Ok (count false (bits bv)).
Proof.
  intros H. unfold bv_count_zeros. rewrite bv_count_ones_ok by auto. cbn [bind].
  pose proof (count_true_false (bits bv)) as E. rewrite lenN_bits in E.
  rewrite sub_ok by lia. f_equal. lia.
Qed.

(** ** constructors *)
Lemma bv_new_wf : wf bv_new.
Proof. split; [reflexivity|constructor]. Qed.
Lemma bv_new_bits : bits bv_new = [].
Proof. reflexivity. Qed.

Lemma bv_from_zeros_ok n : wf (bv_from_zeros n) /\ bits (bv_from_zeros n) = replicate n false.
Proof.
  unfold bv_from_zeros. set (d := replicate (n / 64) 0 ++ (if n mod 64 =? 0 then [] else [0])).
  assert (Hd : d = replicate ((n + 63) / 64) 0).
  { unfold d, replicate. destruct (N.eqb_spec (n mod 64) 0).
    - rewrite app_nil_r. f_equal. dlia.
    - change [0] with (repeat 0 1). rewrite <- repeat_app. f_equal. dlia. }
  rewrite Hd. split; [split|].
  - cbn. apply lenN_replicate.
  - cbn. apply Forall_forall. intros x Hx. apply repeat_spec in Hx. subst. reflexivity.
  - apply list_ext with (d := false).
    + rewrite lenN_bits, lenN_replicate. reflexivity.
    + intros i Hi. rewrite lenN_bits in Hi. cbn in Hi. rewrite nthN_bits by auto.
      rewrite nthN_replicate by auto. cbn. unfold bit_at. rewrite nthN_replicate by dlia. apply N.bits_0.
Qed.

Lemma bv_from_ones_ok n : wf (bv_from_ones n) /\ bits (bv_from_ones n) = replicate n true.
Proof.
  unfold bv_from_ones. split; [split|]; cbn [bdata blen].
  - rewrite lenN_app, lenN_replicate. destruct (N.eqb_spec (n mod 64) 0); cbn; dlia.
  - apply words_app.
    + apply Forall_forall. intros x Hx. apply repeat_spec in Hx. subst. reflexivity.
    + destruct (N.eqb_spec (n mod 64) 0); [constructor|]. apply words_one.
      rewrite lowmask_ones by dlia. rewrite U64_pow. apply testbit_lt. intros. rewrite ones_spec. 
      apply N.ltb_ge. dlia.
  - apply list_ext with (d := false).
    + rewrite lenN_bits, lenN_replicate. reflexivity.
    + intros i Hi. rewrite lenN_bits in Hi. cbn in Hi. rewrite nthN_bits by auto.
      rewrite nthN_replicate by auto. cbn [bdata]. rewrite bit_at_app, lenN_replicate.
      destruct (N.ltb_spec (i / 64) (n / 64)).
      * unfold bit_at. rewrite nthN_replicate by auto. rewrite ones64, ones_spec. apply N.ltb_lt. dlia.
      * destruct (N.eqb_spec (n mod 64) 0); [dlia|]. rewrite bit_at_one by dlia.
        rewrite lowmask_spec by dlia. apply N.ltb_lt. dlia.
Qed.

Lemma bv_from_limbs_ok l : words l ->
  wf (bv_from_limbs l) /\ bits (bv_from_limbs l) = concat (map (fun w => lowbits w 64) l).
Proof.
  intros H. split; [split|]; cbn [bdata blen bv_from_limbs]; auto.
  - dlia.
  - unfold bits. cbn [bdata blen bv_from_limbs].
    assert (G : forall l, bools (bit_at l) (lenN l * 64) = concat (map (fun w => lowbits w 64) l)).
    { clear. induction l as [|w l IH] using rev_ind; [reflexivity|].
      rewrite map_app, concat_app, <- IH, lenN_app. cbn [map concat]. rewrite app_nil_r.
      replace ((lenN l + lenN [w]) * 64) with (lenN l * 64 + 64) by (cbn; lia).
      rewrite bools_app. f_equal; apply bools_ext; intros i Hi; rewrite bit_at_app.
      - destruct (N.ltb_spec (i / 64) (lenN l)); [reflexivity|dlia].
      - destruct (N.ltb_spec ((lenN l * 64 + i) / 64) (lenN l)); [dlia|].
        replace (lenN l * 64 + i - 64 * lenN l) with i by lia. now apply bit_at_one. }
    apply G.
Qed.

Lemma bv_from_bits_ok l :
  exists bv, bv_from_bits l = Ok bv /\ wf bv /\ bits bv = map (fun w => N.testbit w 0) l.
Proof.
  destruct (forM_list_inv (fun pre s => wf s /\ bits s = map (fun w => N.testbit w 0) pre)
              l bv_new bv_append_bit) as (s & E & H1 & H2); eauto.
  - split; [apply bv_new_wf|reflexivity].
  - intros pre x post s _ [Hs Hb]. destruct (bv_append_bit_ok s x Hs) as (s' & E & Hs' & Hb').
    exists s'. repeat split; auto; try apply Hs'. now rewrite Hb', Hb, map_app.
Qed.

Lemma bv_from_bools_ok l :
  exists bv, bv_from_bools l = Ok bv /\ wf bv /\ bits bv = l.
Proof.
  destruct (forM_list_inv (fun pre s => wf s /\ bits s = pre)
              l bv_new bv_append) as (s & E & H1 & H2); eauto.
  - split; [apply bv_new_wf|reflexivity].
  - intros pre x post s _ [Hs Hb]. destruct (bv_append_ok s x Hs) as (s' & E & Hs' & Hb').
    exists s'. repeat split; auto; try apply Hs'. now rewrite Hb', Hb.
Qed.
