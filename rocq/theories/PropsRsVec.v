(** * Properties C12-C18: the rank/select vector.

    All statements are about the vector returned by [rs_from_bit_vec bv] for an arbitrary
    well-formed bit vector [bv] (junk above the length allowed), compared with the list [bits bv]. *)
From Verif Require Import Base Spec BaseFacts WordFacts BitVecModel BitVecProofs BitVecProofs2 PropsBitVec
  RsVecModel RsVecProofs RsVecSelect IterSpec IterFacts RsIterModel RsIterProofs RsEqProofs.

(** Construction never fails. *)
Theorem C12_construction bv :
  wf bv -> exists rs, rs_from_bit_vec bv = Ok rs /\ rlen rs = lenN (bits bv).
Proof.
  intros H. destruct (rs_from_bit_vec_ok bv H) as (rs & E & G). exists rs. split; auto.
  now rewrite (good_len _ _ G), lenN_bits.
Qed.
Lemma built bv rs : wf bv -> rs_from_bit_vec bv = Ok rs -> rs_good bv rs.
Proof. intros H E. destruct (rs_from_bit_vec_ok bv H) as (rs' & E' & G). congruence. Qed.

(** A vector with 1,104 bits: two limbs of ones, then limbs with 1 one in 32. *)
Definition ex_big : bitvec :=
  mkbv (repeat 0xFFFFFFFFFFFFFFFF 2 ++ repeat 0x100000001 15 ++ [0xFFFF0001]) 1104.
Lemma ex_big_wf : wf ex_big.
Proof.
  split; [reflexivity|]. apply Forall_forall. intros w Hw. unfold ex_big in Hw. cbn [bdata] in Hw.
  rewrite !in_app_iff in Hw. destruct Hw as [Hw|[Hw|Hw]].
  - apply repeat_spec in Hw. now subst w.
  - apply repeat_spec in Hw. now subst w.
  - destruct Hw as [<-|[]]. reflexivity.
Qed.

(** ** C12 *)
Theorem C12_rank bv rs p :
  wf bv -> rs_from_bit_vec bv = Ok rs ->
  rs_rank1 rs p = Ok (rank_spec true (bits bv) p) /\
  rs_rank0 rs p = Ok (rank_spec false (bits bv) p) /\
  rank_spec false (bits bv) p + rank_spec true (bits bv) p = N.min p (lenN (bits bv)).
Proof.
  intros H E. pose proof (built bv rs H E) as G. unfold rs_rank1, rs_rank0.
  rewrite !(rs_rank_ok bv) by auto. rewrite !bits_rank, lenN_bits. repeat split; auto.
  rewrite cnt_zbit. pose proof (cnt_le (bit_at (bdata bv)) (N.min p (blen bv))). cbn. lia.
Qed.
Example C12_ex :
  wf ex_big /\
  match rs_from_bit_vec ex_big with
  | Ok rs => rs_rank1 rs 1088 = Ok 158 /\ rs_rank1 rs (2 ^ 64 - 1) = Ok 159 /\ rs_rank0 rs 512 = Ok 372
  | _ => False
  end.
Proof. split; [apply ex_big_wf|]. vm_compute. auto. Qed.

(** ** C13 *)
Theorem C13_select bv rs k :
  wf bv -> rs_from_bit_vec bv = Ok rs ->
  rs_select1 rs k = Ok (select_spec true (bits bv) k) /\
  rs_select0 rs k = Ok (select_spec false (bits bv) k).
Proof.
  intros H E. pose proof (built bv rs H E) as G. split; [now apply rs_select1_ok|now apply rs_select0_ok].
Qed.
Example C13_ex :
  match rs_from_bit_vec ex_big with
  | Ok rs => rs_select1 rs 156 = Ok 1024 /\ rs_select1 rs 159 = Ok 1104 /\ rs_select0 rs 900 = Ok 1058
  | _ => False
  end.
Proof. vm_compute. auto 12. Qed.

(** ** C14 *)
Theorem C14_inverse bv rs :
  wf bv -> rs_from_bit_vec bv = Ok rs ->
  (forall k, k < count true (bits bv) -> exists p, rs_select1 rs k = Ok p /\ rs_rank1 rs p = Ok k /\ rs_get rs p = Ok (Some 1)) /\
  (forall k, k < count false (bits bv) -> exists p, rs_select0 rs k = Ok p /\ rs_rank0 rs p = Ok k /\ rs_get rs p = Ok (Some 0)) /\
  (forall p, rs_get rs p = Ok (Some 1) -> exists k, rs_rank1 rs p = Ok k /\ rs_select1 rs k = Ok p) /\
  (forall p, rs_get rs p = Ok (Some 0) -> exists k, rs_rank0 rs p = Ok k /\ rs_select0 rs k = Ok p).
Proof.
  intros H E. pose proof (built bv rs H E) as G.
  assert (S : forall v k, k < count v (bits bv) -> exists p, select_spec v (bits bv) k = p /\
                rank_spec v (bits bv) p = k /\ getN (bits bv) p = Some v).
  { intros v k Hk. unfold select_spec. rewrite <- lenN_positions in Hk.
    set (p := nthN 0 (positions v (bits bv)) k). exists p.
    assert (Hg : getN (positions v (bits bv)) k = Some p) by now apply getN_ok.
    rewrite Hg. apply getN_positions in Hg. destruct Hg as (H1 & H2 & H3). repeat split; auto.
    rewrite (getN_ok (negb v)) by auto. now rewrite H2. }
  assert (T : forall v p, getN (bits bv) p = Some v -> select_spec v (bits bv) (rank_spec v (bits bv) p) = p).
  { intros v p Hp. apply getN_Some_inv in Hp. destruct Hp as [Hp Hv]. unfold select_spec.
    assert (Hg : getN (positions v (bits bv)) (rank_spec v (bits bv) p) = Some p).
    { apply getN_positions. repeat split; auto. }
    now rewrite Hg. }
  assert (Q : forall p v, rs_get rs p = Ok (Some (bitN v)) -> getN (bits bv) p = Some v).
  { intros p v. rewrite (rs_get_ok bv) by auto. destruct (getN (bits bv) p) as [[]|]; destruct v; cbn; intros X; try discriminate X; auto. }
  pose proof (fun p => C12_rank bv rs p H E) as HR. pose proof (fun k => C13_select bv rs k H E) as HS.
  repeat split.
  - intros k Hk. destruct (S true k Hk) as (p & S1 & S2 & S3). exists p.
    destruct (HR p) as (-> & _). destruct (HS k) as (-> & _). rewrite S1, S2, (rs_get_ok bv), S3 by auto. auto.
  - intros k Hk. destruct (S false k Hk) as (p & S1 & S2 & S3). exists p.
    destruct (HR p) as (_ & -> & _). destruct (HS k) as (_ & ->). rewrite S1, S2, (rs_get_ok bv), S3 by auto. auto.
  - intros p Hp. apply (Q p true) in Hp. eexists. destruct (HR p) as (-> & _). split; [reflexivity|].
    destruct (HS (rank_spec true (bits bv) p)) as (-> & _). now rewrite T.
  - intros p Hp. apply (Q p false) in Hp. eexists. destruct (HR p) as (_ & -> & _). split; [reflexivity|].
    destruct (HS (rank_spec false (bits bv) p)) as (_ & ->). now rewrite T.
Qed.
Example C14_ex : 158 < count true (bits ex_big) /\ count false (bits ex_big) = 945.
Proof. vm_compute. auto 12. Qed.

(** ** C15 *)
Theorem C15_get bv rs p :
  wf bv -> rs_from_bit_vec bv = Ok rs ->
  rs_get rs p = Ok (option_map bitN (getN (bits bv) p)) /\
  wf (rs_into_bit_vec rs) /\ bits (rs_into_bit_vec rs) = bits bv.
Proof.
  intros H E. pose proof (built bv rs H E) as G. rewrite (rs_into_bit_vec_ok bv rs G).
  split; [now apply rs_get_ok|]. split; [apply H|reflexivity].
Qed.
(** The whole of the [get_bits] claim except for two kinds of panics: overflow of [p + n] and the
    empty read at the very end of a vector whose length is a multiple of 64. *)
Theorem C15_get_bits_partial bv rs p n :
  wf bv -> rs_from_bit_vec bv = Ok rs -> p + n < 2 ^ 64 ->
  ~ (n = 0 /\ p = lenN (bits bv) /\ p mod 64 = 0) ->
  rs_get_bits rs p n = Ok (if (n <=? 64) && (p + n <=? lenN (bits bv))
                           then Some (value (sliceN p n (bits bv))) else None).
Proof.
  intros H E Ho Hn. pose proof (built bv rs H E) as G. rewrite lenN_bits in *. apply rs_get_bits_ok; auto.
  destruct (N.eqb_spec n 0), (N.eqb_spec (p mod 64) 0); auto. right. right.
  destruct (N.lt_trichotomy p (blen bv)) as [?|[?|?]]; tauto.
Qed.
Example C15_ex :
  match rs_from_bit_vec ex_big with
  | Ok rs => rs_get_bits rs 1024 64 = Ok (Some 0x100000001) /\ rs_get_bits rs 1041 64 = Ok None /\
             rs_get_bits rs 1104 0 = Ok (Some 0)
  | _ => False
  end.
Proof. vm_compute. auto 12. Qed.
Theorem C15_get_bits_refuted :
  exists bv rs p n, wf bv /\ rs_from_bit_vec bv = Ok rs /\ n <= 64 /\ p + n = lenN (bits bv) /\
                    rs_get_bits rs p n = Panic.
Proof.
  exists (mkbv [1] 64). eexists. exists 64, 0. split.
  - split; [reflexivity|]. repeat constructor.
  - split; [reflexivity|]. vm_compute. split; [discriminate|auto].
Qed.
Theorem C15_get_bits_overflow_refuted :
  exists bv rs p n, wf bv /\ rs_from_bit_vec bv = Ok rs /\ p < 2 ^ 64 /\ n <= 64 /\
                    rs_get_bits rs p n = Panic.
Proof.
  exists (mkbv [1] 64). eexists. exists (2 ^ 64 - 1), 1. split.
  - split; [reflexivity|]. repeat constructor.
  - split; [reflexivity|]. vm_compute. split; [auto|split; [discriminate|auto]].
Qed.

(** ** C16 *)
Theorem C16_equality a b ra rb :
  wf a -> wf b -> rs_from_bit_vec a = Ok ra -> rs_from_bit_vec b = Ok rb ->
  exists r, (r = true <-> bits a = bits b) /\
            rs_eq ra rb = Ok r /\ rs_full_equals ra rb = Ok r /\
            rs_sparse_equals true ra rb = Ok r /\ rs_sparse_equals false ra rb = Ok r.
Proof.
  intros Ha Hb Ea Eb. pose proof (built a ra Ha Ea) as Ga. pose proof (built b rb Hb Eb) as Gb.
  destruct (rs_eq_ok a b ra rb Ha Hb Ga Gb) as (r & E1 & H1).
  destruct (rs_full_equals_ok a b ra rb Ha Hb Ga Gb) as (r2 & E2 & H2).
  destruct (rs_sparse_equals_ok true a b ra rb Ha Hb Ga Gb) as (r3 & E3 & H3).
  destruct (rs_sparse_equals_ok false a b ra rb Ha Hb Ga Gb) as (r4 & E4 & H4).
  assert (X : forall x y : bool, (x = true <-> bits a = bits b) -> (y = true <-> bits a = bits b) -> x = y).
  { intros x y Hx Hy. rewrite <- Hy in Hx. destruct x, y; auto; [symmetry|]; now apply Hx. }
  exists r. rewrite (X r2 r H2 H1) in E2. rewrite (X r3 r H3 H1) in E3. rewrite (X r4 r H4 H1) in E4. auto.
Qed.
(** Different junk, same bits; then one different bit. *)
Definition ex_big2 : bitvec :=
  mkbv (repeat 0xFFFFFFFFFFFFFFFF 2 ++ repeat 0x100000001 15 ++ [0xABCD0001]) 1104.
Definition ex_big3 : bitvec :=
  mkbv (repeat 0xFFFFFFFFFFFFFFFF 2 ++ repeat 0x100000001 14 ++ [0x200000001; 0xABCD0001]) 1104.
Example C16_ex :
  match rs_from_bit_vec ex_big, rs_from_bit_vec ex_big2, rs_from_bit_vec ex_big3 with
  | Ok a, Ok b, Ok c => rs_sparse_equals false a b = Ok true /\ rs_full_equals a b = Ok true /\
      rs_sparse_equals false a c = Ok false /\ rs_full_equals a c = Ok false
  | _, _, _ => False
  end.
Proof. vm_compute. auto 12. Qed.

(** ** C17, C18: iterators. [zero = true] is [iter0], [zero = false] is [iter1]. *)
Theorem C17_iter zero bv rs ops :
  wf bv -> rs_from_bit_vec bv = Ok rs ->
  skips_inside false true (positions (negb zero) (bits bv)) ops ->
  exists it, sel_new zero rs = Ok it /\
    iter_run (sel_step zero rs) it ops = Ok (iter_spec_run (positions (negb zero) (bits bv)) ops).
Proof.
  intros H E Hs. pose proof (built bv rs H E) as G.
  destruct (sel_new_ok zero bv rs H G) as (it & Ei & R). exists it. split; auto.
  apply (iter_refines (sel_R zero bv rs) false true); auto.
  intros s l op R' Hop. apply sel_step_ok; auto.
Qed.
Definition C17_ops : list iter_op := [INext; INextBack; INth 100; ILen; INthBack 20; INext; ILen].
Example C17_ex :
  skips_inside false true (positions true (bits ex_big)) C17_ops /\
  iter_spec_run (positions true (bits ex_big)) C17_ops =
    [OItem (Some 0); OItem (Some 1088); OItem (Some 101); OLen 56; OItem (Some 416); OItem (Some 102); OLen 34].
Proof. vm_compute. auto 12. Qed.

(** [next]/[next_back]/[len] without skipping, as in the property. *)
Corollary C17_plain zero bv rs ops :
  wf bv -> rs_from_bit_vec bv = Ok rs ->
  Forall (fun op => op = INext \/ op = INextBack \/ op = ILen) ops ->
  exists it, sel_new zero rs = Ok it /\
    iter_run (sel_step zero rs) it ops = Ok (iter_spec_run (positions (negb zero) (bits bv)) ops).
Proof.
  intros H E Ho. apply C17_iter; auto. clear H E. generalize (positions (negb zero) (bits bv)).
  induction Ho as [|op ops Hop Ho IH]; intros l; cbn [skips_inside]; auto. split; auto.
  now destruct Hop as [-> | [-> | ->]].
Qed.

(** States reachable by any sequence of calls that respects the [nth_back] restriction. *)
Inductive sel_reach (zero : bool) (rs : rsvec) : sel_iter -> list N -> list N -> Prop :=
| reach_new it P : sel_new zero rs = Ok it -> sel_reach zero rs it P P
| reach_step it l P op it' o : sel_reach zero rs it l P ->
    match op with INthBack n => n < lenN l | _ => True end ->
    sel_step zero rs it op = Ok (it', o) -> sel_reach zero rs it' (fst (iter_spec l op)) P.

(** In every reachable state, with [l] the elements still to come: [nth n] for every [n] is
    [n + 1] times [next]; [last] and [count] agree with exhausting the iterator; [nth_back n] is
    [n + 1] times [next_back] when [n] elements can be skipped. *)
Fixpoint repeat_op (zero : bool) (rs : rsvec) (op : iter_op) (n : nat) (it : sel_iter) : res (sel_iter * iter_out N) :=
  match n with
  | O => sel_step zero rs it op
  | S n => let* '(it, _) := sel_step zero rs it op in repeat_op zero rs op n it
  end.

Lemma reach_R zero bv rs it l : wf bv -> rs_from_bit_vec bv = Ok rs ->
  sel_reach zero rs it l (positions (negb zero) (bits bv)) -> sel_R zero bv rs it l.
Proof.
  intros H E. pose proof (built bv rs H E) as G. intros Hr. remember (positions (negb zero) (bits bv)) as P eqn:EP.
  induction Hr as [it P Hn|it l P op it' o Hr IH Hop Hs].
  - destruct (sel_new_ok zero bv rs H G) as (it0 & Ei & R). subst P. assert (it0 = it) by congruence. now subst.
  - specialize (IH EP). destruct (sel_step_ok zero bv rs H G it l op IH Hop) as (it2 & E2 & R2).
    rewrite Hs in E2. injection E2 as <- _. auto.
Qed.

Lemma repeat_next_ok zero bv rs n it l : wf bv -> rs_good bv rs -> sel_R zero bv rs it l ->
  exists it', repeat_op zero rs INext n it = Ok (it', OItem (getN l (N.of_nat n))) /\
              sel_R zero bv rs it' (dropN (N.of_nat n + 1) l).
Proof.
  intros H G. revert it l. induction n as [|n IH]; intros it l R; cbn [repeat_op].
  - destruct (sel_step_ok zero bv rs H G it l INext R I) as (it' & E & R'). exists it'. rewrite E. auto.
  - destruct (sel_step_ok zero bv rs H G it l INext R I) as (it' & E & R'). rewrite E. cbn [bind].
    cbn [iter_spec fst] in R'. destruct (IH it' _ R') as (it2 & E2 & R2). exists it2. rewrite E2.
    rewrite getN_dropN. rewrite dropN_dropN in R2. split.
    + do 4 f_equal. lia.
    + replace (N.of_nat (S n) + 1) with (1 + (N.of_nat n + 1)) by lia. auto.
Qed.
Lemma repeat_next_back_ok zero bv rs n it l : wf bv -> rs_good bv rs -> sel_R zero bv rs it l ->
  exists it', repeat_op zero rs INextBack n it = Ok (it', OItem (getN (rev l) (N.of_nat n))) /\
              sel_R zero bv rs it' (takeN (lenN l - (N.of_nat n + 1)) l).
Proof.
  intros H G. revert it l. induction n as [|n IH]; intros it l R; cbn [repeat_op].
  - destruct (sel_step_ok zero bv rs H G it l INextBack R I) as (it' & E & R'). exists it'. rewrite E. auto.
  - destruct (sel_step_ok zero bv rs H G it l INextBack R I) as (it' & E & R'). rewrite E. cbn [bind].
    cbn [iter_spec fst] in R'. destruct (IH it' _ R') as (it2 & E2 & R2). exists it2. rewrite E2.
    assert (El : lenN (takeN (lenN l - 1) l) = lenN l - 1) by (rewrite lenN_takeN; lia). split.
    + do 2 f_equal. rewrite !getN_rev, El.
      destruct (N.ltb_spec (N.of_nat n) (lenN l - 1)), (N.ltb_spec (N.of_nat (S n)) (lenN l)); try lia; auto.
      rewrite getN_takeN. destruct (N.ltb_spec (lenN l - 1 - 1 - N.of_nat n) (lenN l - 1)); [|lia].
      do 2 f_equal. lia.
    + rewrite El, takeN_min in R2.
      replace (lenN l - (N.of_nat (S n) + 1)) with (N.min (lenN l - 1 - (N.of_nat n + 1)) (lenN l - 1)) by lia. auto.
Qed.

(** Two states are interchangeable if every sequence of calls gives the same answers. *)
Definition same_future (zero : bool) (rs : rsvec) (s t : sel_iter) (l : list N) : Prop :=
  forall ops, skips_inside false true l ops ->
    iter_run (sel_step zero rs) s ops = iter_run (sel_step zero rs) t ops.

Lemma R_same_future zero bv rs s t l : wf bv -> rs_good bv rs ->
  sel_R zero bv rs s l -> sel_R zero bv rs t l -> same_future zero rs s t l.
Proof.
  intros H G Rs Rt ops Hs.
  assert (X : forall s l op, sel_R zero bv rs s l ->
    match op with INth n => True | INthBack n => n < lenN l | _ => True end ->
    exists s', sel_step zero rs s op = Ok (s', snd (iter_spec l op)) /\ sel_R zero bv rs s' (fst (iter_spec l op))).
  { intros. apply sel_step_ok; auto. }
  rewrite (iter_refines (sel_R zero bv rs) false true (sel_step zero rs) X ops s l Rs Hs).
  now rewrite (iter_refines (sel_R zero bv rs) false true (sel_step zero rs) X ops t l Rt Hs).
Qed.

Theorem C18_nth zero bv rs it l n :
  wf bv -> rs_from_bit_vec bv = Ok rs -> sel_reach zero rs it l (positions (negb zero) (bits bv)) ->
  exists s t o, sel_nth zero rs it n = Ok (s, o) /\
                repeat_op zero rs INext (N.to_nat n) it = Ok (t, OItem o) /\
                same_future zero rs s t (dropN (n + 1) l).
Proof.
  intros H E Hr. pose proof (built bv rs H E) as G. pose proof (reach_R zero bv rs it l H E Hr) as R.
  destruct (sel_nth_ok zero bv rs H G it l n R) as (s & E1 & R1).
  destruct (repeat_next_ok zero bv rs (N.to_nat n) it l H G R) as (t & E2 & R2). rewrite N2Nat.id in *.
  exists s, t, (getN l n). repeat split; auto. now apply R_same_future with (bv := bv).
Qed.
Theorem C18_last_count zero bv rs it l :
  wf bv -> rs_from_bit_vec bv = Ok rs -> sel_reach zero rs it l (positions (negb zero) (bits bv)) ->
  sel_last zero rs it = Ok (getN (rev l) 0) /\ sel_count it = lenN l.
Proof.
  intros H E Hr. pose proof (built bv rs H E) as G. pose proof (reach_R zero bv rs it l H E Hr) as R.
  split; [now apply (sel_last_ok zero bv rs)|]. symmetry. now apply (R_lenN zero bv rs).
Qed.
(** [nth_back] skips correctly as long as the element exists, or once the front has moved;
    the remaining case panics ([C18_nth_back_refuted]). *)
Theorem C18_nth_back_partial zero bv rs it l n :
  wf bv -> rs_from_bit_vec bv = Ok rs -> sel_reach zero rs it l (positions (negb zero) (bits bv)) ->
  n < lenN l \/ 0 < it_rank it ->
  exists s t o, sel_nth_back zero rs it n = Ok (s, o) /\
                repeat_op zero rs INextBack (N.to_nat n) it = Ok (t, OItem o) /\
                same_future zero rs s t (takeN (lenN l - (n + 1)) l).
Proof.
  intros H E Hr Hn. pose proof (built bv rs H E) as G. pose proof (reach_R zero bv rs it l H E Hr) as R.
  destruct (sel_nth_back_ok zero bv rs H G it l n R Hn) as (s & E1 & R1).
  destruct (repeat_next_back_ok zero bv rs (N.to_nat n) it l H G R) as (t & E2 & R2). rewrite N2Nat.id in *.
  exists s, t, (getN (rev l) n). repeat split; auto. now apply R_same_future with (bv := bv).
Qed.
(** Exactly when it panics: nothing taken from the front yet, something left, and [n] too large. *)
Theorem C18_nth_back_panics zero bv rs it l n :
  wf bv -> rs_from_bit_vec bv = Ok rs -> sel_reach zero rs it l (positions (negb zero) (bits bv)) ->
  it_rank it = 0 -> l <> [] -> lenN l <= n -> sel_nth_back zero rs it n = Panic.
Proof.
  intros H E Hr H0 Hl Hn. pose proof (reach_R zero bv rs it l H E Hr) as R.
  apply (nth_back_panics zero bv rs it l n); auto. destruct l; [congruence|]. rewrite lenN_cons. lia.
Qed.
Theorem C18_nth_back_refuted :
  exists bv rs it n, wf bv /\ rs_from_bit_vec bv = Ok rs /\ sel_new false rs = Ok it /\
                     sel_nth_back false rs it n = Panic.
Proof.
  set (bv := mkbv [5] 3). exists bv.
  set (rs := match rs_from_bit_vec bv with Ok rs => rs | _ => mkrs [] 0 [] [] [] 0 0 end). exists rs.
  exists (match sel_new false rs with Ok it => it | _ => mkit 0 None 0 0 0 0 end). exists 2.
  split; [split; [reflexivity|repeat constructor]|]. vm_compute. auto.
Qed.
Example C18_ex :
  match rs_from_bit_vec ex_big with
  | Ok rs => match sel_new true rs with
    | Ok it => match sel_nth true rs it 900 with
      | Ok (it, o) => o = Some 1058 /\ sel_count it = 44 /\
          match sel_nth_back true rs it 43, sel_nth_back true rs it 44 with
          | Ok (_, Some 1059), Ok (_, None) => True
          | _, _ => False
          end
      | _ => False end
    | _ => False end
  | _ => False
  end.
Proof. vm_compute. auto 12. Qed.
