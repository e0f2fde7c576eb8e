(** * Excess of parenthesis expressions and the 8-bit lookup tables. *)
From Verif Require Import Base Spec BaseFacts WordFacts BitVecModel BitVecProofs BpModel.
Local Open Scope Z_scope.

(** The number of opening minus the number of closing parentheses among the first [p]. *)
Definition excess_before (l : list bool) (p : N) : Z :=
  Z.of_N (count true (takeN p l)) - Z.of_N (count false (takeN p l)).
Definition paren (b : bool) : Z := if b then 1 else -1.

Lemma ex_0 l : excess_before l 0 = 0.
Proof. unfold excess_before. now rewrite takeN_0. Qed.
Lemma ex_succ l p : (p < lenN l)%N -> excess_before l (p + 1) = excess_before l p + paren (nthN false l p).
Proof.
  intros Hp. unfold excess_before. rewrite (takeN_succ false) by auto. rewrite !count_app. cbn [count]. destruct (nthN false l p); cbn; lia.
Qed.
Lemma ex_over l p : (lenN l <= p)%N -> excess_before l p = excess_before l (lenN l).
Proof. intros Hp. unfold excess_before. now rewrite !takeN_all by lia. Qed.
Lemma ex_step l p : Z.abs (excess_before l (p + 1) - excess_before l p) <= 1.
Proof.
  destruct (N.ltb_spec p (lenN l)); [rewrite ex_succ by auto; unfold paren; destruct (nthN false l p); lia|].
  rewrite (ex_over l p), (ex_over l (p + 1)) by lia. lia.
Qed.
Lemma ex_dist l p n : Z.abs (excess_before l (p + n) - excess_before l p) <= Z.of_N n.
Proof.
  revert n. apply N_ind1; [rewrite N.add_0_r; lia|]. intros n IH. rewrite N.add_assoc. pose proof (ex_step l (p + n)). lia.
Qed.
Lemma ex_bound l p : Z.abs (excess_before l p) <= Z.of_N p.
Proof. pose proof (ex_dist l 0 p). rewrite ex_0, N.add_0_l in *. lia. Qed.
Lemma ex_len l p q : Z.abs (excess_before l p - excess_before l q) <= Z.of_N (lenN l).
Proof.
  assert (H : forall p q, (p <= q)%N -> (q <= lenN l)%N -> Z.abs (excess_before l p - excess_before l q) <= Z.of_N (lenN l)).
  { intros x y Hx Hy. pose proof (ex_dist l x (y - x)) as Hd. replace (x + (y - x))%N with y in Hd by lia. lia. }
  assert (H2 : forall p, exists p', (p' <= lenN l)%N /\ excess_before l p = excess_before l p').
  { intros x. destruct (N.leb_spec x (lenN l)); [eauto|]. exists (lenN l). split; [lia|]. apply ex_over. lia. }
  destruct (H2 p) as (p' & Hp & ->), (H2 q) as (q' & Hq & ->). destruct (N.leb_spec p' q').
  - now apply H.
  - rewrite <- Z.abs_opp. replace (- (excess_before l p' - excess_before l q')) with (excess_before l q' - excess_before l p') by lia. apply H; auto. lia.
Qed.
(** Discrete intermediate values. *)
Lemma ex_ivt l x n r : Z.min 0 (excess_before l (x + n) - excess_before l x) <= r <= Z.max 0 (excess_before l (x + n) - excess_before l x) ->
  exists j, (x <= j <= x + n)%N /\ excess_before l j = excess_before l x + r.
Proof.
  revert n r. intros n. pattern n. apply N_ind1; clear n.
  - intros r Hr. rewrite N.add_0_r in Hr. exists x. split; lia.
  - intros n IH r Hr. rewrite N.add_assoc in Hr. pose proof (ex_step l (x + n)) as Hs.
    destruct (Z.eq_dec r (excess_before l (x + n + 1) - excess_before l x)) as [E|E].
    + exists (x + n + 1)%N. split; lia.
    + destruct (IH r) as (j & Hj & Ej); [lia|]. exists j. split; [lia|auto].
Qed.
Lemma ex_slice l a n k : (k <= n)%N -> (a + n <= lenN l)%N -> excess_before (sliceN a n l) k = excess_before l (a + k) - excess_before l a.
Proof.
  intros Hk Hn. revert k Hk. intros k. pattern k. apply N_ind1; clear k.
  - rewrite ex_0, N.add_0_r. lia.
  - intros k IH Hk. rewrite ex_succ by (rewrite lenN_sliceN; lia). rewrite IH by lia. rewrite N.add_assoc, ex_succ by lia. rewrite nthN_sliceN by lia. lia.
Qed.
Lemma ex_ext l m p : (forall i, (i < p)%N -> nthN false l i = nthN false m i) -> (p <= lenN l)%N -> (p <= lenN m)%N -> excess_before l p = excess_before m p.
Proof.
  revert p. intros p. pattern p. apply N_ind1; clear p; [now rewrite !ex_0|]. intros p IH H H1 H2.
  rewrite !ex_succ by lia. rewrite H by lia. rewrite IH; auto; try lia. intros i Hi. apply H. lia.
Qed.

Lemma i64_ok z : Z.abs z <= 9223372036854775807 -> i64 z = Ok z.
Proof. intros H. unfold i64. destruct (Z.leb_spec (-9223372036854775808) z), (Z.leb_spec z 9223372036854775807); try lia. reflexivity. Qed.

(** ** What the lookup functions have to do. *)
Definition fwd_answer (b : list bool) (rel : Z) (r : res (Z + N)) : Prop :=
  (exists k, r = Ok (inr k) /\ (k < lenN b)%N /\ excess_before b (k + 1) = rel /\ (forall j, (j < k)%N -> excess_before b (j + 1) <> rel)) \/
  (r = Ok (inl (rel - excess_before b (lenN b))) /\ forall j, (j < lenN b)%N -> excess_before b (j + 1) <> rel).
Definition bwd_answer (b : list bool) (rel : Z) (r : res (Z + N)) : Prop :=
  let want := rel + excess_before b (lenN b) in
  (exists k, r = Ok (inr k) /\ (k < lenN b)%N /\ excess_before b k = want /\ (forall j, (k < j < lenN b)%N -> excess_before b j <> want)) \/
  (r = Ok (inl want) /\ forall j, (j < lenN b)%N -> excess_before b j <> want).
Record lookup_ok (lk : lookup) : Prop := {
  lko_pos : (0 < lk_size lk)%N;
  lko_max : (lk_size lk <= 64)%N;
  lko_fwd : forall b rel, lenN b = lk_size lk -> Z.abs (rel - excess_before b (lenN b)) <= 9223372036854775807 -> fwd_answer b rel (lk_fwd lk (value b) rel);
  lko_bwd : forall b rel, lenN b = lk_size lk -> rel <> 0 -> Z.abs (rel + excess_before b (lenN b)) <= 9223372036854775807 -> bwd_answer b rel (lk_bwd lk (value b) rel)
}.

(** ** The 8-bit tables, checked exhaustively. *)
Definition lq_fwd_ref (b : list bool) (rel : Z) : option N := find (fun k => excess_before b (k + 1) =? rel) (range 0 (lenN b)).
Definition lq_bwd_ref (b : list bool) (rel : Z) : option N := find (fun k => excess_before b k =? rel + excess_before b (lenN b)) (rev (range 0 (lenN b))).
Definition rels : list Z := map (fun i => Z.of_N i - 8) (range 0 17).
Definition opt_eqb (a b : option N) : bool := match a, b with Some x, Some y => (x =? y)%N | None, None => true | _, _ => false end.
Definition res_opt (r : res N) : option N := match r with Ok x => Some x | _ => None end.

Definition chk_entry (v e e' : N) : bool :=
  let b := lowbits v 8 in
  let ex := excess_before b 8 in
  (lookup_total_excess 8 v =? ex) && (-8 <=? get_minimum_excess e) && (get_maximum_excess e <=? 8) &&
  (-8 <=? get_minimum_excess e - ex) && (get_maximum_excess e - ex <=? 8) &&
  forallb (fun rel =>
    opt_eqb (if (rel <=? get_maximum_excess e) && (get_minimum_excess e <=? rel) then res_opt (answer_query e rel) else None) (lq_fwd_ref b rel) &&
    ((rel =? 0) ||
     opt_eqb (if (rel + ex =? 0) || ((get_minimum_excess e <=? rel + ex) && (rel + ex <=? get_maximum_excess e)) then res_opt (answer_query e' rel) else None) (lq_bwd_ref b rel))) rels.
Definition chk_tables (r r' : res (list N)) : bool :=
  match r, r' with
  | Ok t, Ok t' => (lenN t =? 256)%N && (lenN t' =? 256)%N && forallb (fun '(v, (e, e')) => chk_entry v e e') (combine (range 0 256) (combine t t'))
  | _, _ => false
  end.
Lemma chk_tables_true : chk_tables PAREN_BLOCK_LOOKUP_FWD PAREN_BLOCK_LOOKUP_BWD = true.
Proof. vm_compute. reflexivity. Qed.

Lemma nthN_combine {A C} (l : list A) (m : list C) i d d' : (i < lenN l)%N -> lenN m = lenN l -> nthN (d, d') (combine l m) i = (nthN d l i, nthN d' m i).
Proof.
  intros Hi Hl. unfold nthN. rewrite combine_nth; [reflexivity|]. unfold lenN in *. lia.
Qed.
Lemma lenN_combine {A C} (l : list A) (m : list C) : lenN (combine l m) = N.min (lenN l) (lenN m).
Proof. unfold lenN. rewrite combine_length. lia. Qed.
Lemma tables_gen r r' : chk_tables r r' = true -> exists t t', r = Ok t /\ r' = Ok t' /\ lenN t = 256%N /\ lenN t' = 256%N /\
  forall v, (v < 256)%N -> chk_entry v (nthN 0%N t v) (nthN 0%N t' v) = true.
Proof.
  intros H. unfold chk_tables in H. destruct r as [t| |]; try discriminate. destruct r' as [t'| |]; try discriminate.
  exists t, t'. apply andb_prop in H. destruct H as [H H3]. apply andb_prop in H. destruct H as [H1 H2]. apply N.eqb_eq in H1, H2.
  repeat (split; [auto|]). intros v Hv. rewrite forallb_forall in H3. specialize (H3 (v, (nthN 0%N t v, nthN 0%N t' v))). cbn beta iota in H3. apply H3.
  assert (E : nthN (0%N, (0%N, 0%N)) (combine (range 0 256) (combine t t')) v = (v, (nthN 0%N t v, nthN 0%N t' v))).
  { rewrite nthN_combine by (rewrite ?lenN_combine, ?lenN_range; lia). rewrite nthN_combine by lia. rewrite nthN_range by lia. reflexivity. }
  rewrite <- E. apply In_nthN. rewrite !lenN_combine, lenN_range. lia.
Qed.

Lemma lowbits_of_value (b : list bool) : lowbits (value b) (lenN b) = b.
Proof.
  apply list_ext with (d := false); [apply lenN_lowbits|]. intros i Hi. rewrite lenN_lowbits in Hi. rewrite nthN_lowbits by auto. apply testbit_value.
Qed.
Lemma find_range_spec (f : N -> bool) n : match find f (range 0 n) with
  | Some k => (k < n)%N /\ f k = true /\ forall j, (j < k)%N -> f j = false
  | None => forall j, (j < n)%N -> f j = false end.
Proof.
  pattern n. apply N_ind1; clear n; [change (range 0 0) with (@nil N); cbn; intros; lia|]. intros n IH.
  assert (Er : range 0 (n + 1) = range 0 n ++ [n]) by (rewrite (range_snoc 0 (n + 1)) by lia; repeat f_equal; lia).
  assert (Ef : forall (m1 m2 : list N), find f (m1 ++ m2) = match find f m1 with Some x => Some x | None => find f m2 end).
  { induction m1 as [|x m1 IHm]; intros; [reflexivity|]. cbn. destruct (f x); auto. }
  rewrite Er, Ef. destruct (find f (range 0 n)) as [k|].
  - destruct IH as (H1 & H2 & H3). repeat split; auto. lia.
  - cbn [find]. destruct (f n) eqn:E.
    + repeat split; auto. lia.
    + intros j Hj. destruct (N.eq_dec j n) as [->|]; auto. apply IH. lia.
Qed.
Lemma find_rev_range_spec (f : N -> bool) n : match find f (rev (range 0 n)) with
  | Some k => (k < n)%N /\ f k = true /\ forall j, (k < j < n)%N -> f j = false
  | None => forall j, (j < n)%N -> f j = false end.
Proof.
  pattern n. apply N_ind1; clear n; [change (range 0 0) with (@nil N); cbn; intros; lia|]. intros n IH.
  assert (Er : range 0 (n + 1) = range 0 n ++ [n]) by (rewrite (range_snoc 0 (n + 1)) by lia; repeat f_equal; lia).
  rewrite Er, rev_app_distr. cbn [rev app find]. destruct (f n) eqn:E.
  - repeat split; auto; [lia|]. intros; lia.
  - destruct (find f (rev (range 0 n))) as [k|].
    + destruct IH as (H1 & H2 & H3). repeat split; auto; [lia|]. intros j Hj. destruct (N.eq_dec j n) as [->|]; auto. apply H3. lia.
    + intros j Hj. destruct (N.eq_dec j n) as [->|]; auto. apply IH. lia.
Qed.
Lemma in_rels rel : -8 <= rel <= 8 -> In rel rels.
Proof.
  intros H. unfold rels. apply in_map_iff. exists (Z.to_N (rel + 8)). split; [lia|]. apply In_range. lia.
Qed.
Lemma opt_eqb_eq a b : opt_eqb a b = true -> a = b.
Proof. destruct a, b; cbn; try discriminate; auto. intros H. apply N.eqb_eq in H. now subst. Qed.

Lemma chk_entry_inv b e e' : lenN b = 8%N -> chk_entry (value b) e e' = true ->
  lookup_total_excess 8 (value b) = excess_before b 8 /\ -8 <= get_minimum_excess e /\ get_maximum_excess e <= 8 /\ -8 <= get_minimum_excess e - excess_before b 8 /\ get_maximum_excess e - excess_before b 8 <= 8 /\
  forall rel, -8 <= rel <= 8 ->
    (if (rel <=? get_maximum_excess e) && (get_minimum_excess e <=? rel) then res_opt (answer_query e rel) else None) = lq_fwd_ref b rel /\
    (rel <> 0 -> (if (rel + excess_before b 8 =? 0) || ((get_minimum_excess e <=? rel + excess_before b 8) && (rel + excess_before b 8 <=? get_maximum_excess e)) then res_opt (answer_query e' rel) else None) = lq_bwd_ref b rel).
Proof.
  intros Hb Hc. unfold chk_entry in Hc. pose proof (lowbits_of_value b) as Hlb. rewrite Hb in Hlb. rewrite Hlb in Hc.
  apply andb_prop in Hc. destruct Hc as [Hc Ha]. apply andb_prop in Hc. destruct Hc as [Hc Hd2]. apply andb_prop in Hc. destruct Hc as [Hc Hd1].
  apply andb_prop in Hc. destruct Hc as [Hc Hmx]. apply andb_prop in Hc. destruct Hc as [Ht Hmn].
  apply Z.eqb_eq in Ht. apply Z.leb_le in Hmx, Hmn, Hd1, Hd2. repeat (split; [assumption|]). intros rel Hs.
  rewrite forallb_forall in Ha. specialize (Ha rel (in_rels rel Hs)). apply andb_prop in Ha. destruct Ha as [Ha1 Ha2]. split; [now apply opt_eqb_eq|].
  intros Hn. destruct (Z.eqb_spec rel 0); [contradiction|]. now apply opt_eqb_eq.
Qed.
Lemma query_ok e rel : -8 <= rel <= 8 -> exists k, answer_query e rel = Ok k.
Proof. intros H. unfold answer_query. destruct (Z.leb_spec (Z.abs rel) 8); [|lia]. cbn. eauto. Qed.

Lemma fwd_entry_ok b rel e e' : lenN b = 8%N -> chk_entry (value b) e e' = true -> Z.abs (rel - excess_before b (lenN b)) <= 9223372036854775807 ->
  fwd_answer b rel (if (rel <=? get_maximum_excess e) && (get_minimum_excess e <=? rel) then let* i := answer_query e rel in Ok (inr i)
                    else let* rel' := i64 (rel - lookup_total_excess 8 (value b)) in Ok (inl rel')).
Proof.
  intros Hb Hc Hr. destruct (chk_entry_inv b e e' Hb Hc) as (Ht & Hmn & Hmx & Hd1 & Hd2 & Ha). clear Hc. pose proof (ex_bound b 8) as Hb8. rewrite Hb in Hr. rewrite Ht, i64_ok by lia. cbn [bind].
  unfold fwd_answer. rewrite Hb. destruct (Z.leb_spec (Z.abs rel) 8) as [Hs|Hs].
  - destruct (Ha rel ltac:(lia)) as [Ha1 _]. destruct (query_ok e rel ltac:(lia)) as (k & Ek). rewrite Ek in *. cbn [bind res_opt] in *.
    pose proof (find_range_spec (fun k => excess_before b (k + 1) =? rel) (lenN b)) as Hf. unfold lq_fwd_ref in Ha1. rewrite <- Ha1, Hb in Hf. clear Ha Ha1.
    destruct ((rel <=? get_maximum_excess e) && (get_minimum_excess e <=? rel)).
    + left. exists k. destruct Hf as (H1 & H2 & H3). apply Z.eqb_eq in H2. repeat split; auto. intros j Hj. apply H3 in Hj. now apply Z.eqb_neq in Hj.
    + right. split; [reflexivity|]. intros j Hj. apply Hf in Hj. now apply Z.eqb_neq in Hj.
  - destruct (Z.leb_spec rel (get_maximum_excess e)), (Z.leb_spec (get_minimum_excess e) rel); try lia; cbn [andb]; right; (split; [reflexivity|]); intros j Hj; pose proof (ex_bound b (j + 1)); lia.
Qed.
Lemma bwd_entry_ok b rel e e' : lenN b = 8%N -> chk_entry (value b) e e' = true -> rel <> 0 -> Z.abs (rel + excess_before b (lenN b)) <= 9223372036854775807 ->
  bwd_answer b rel (let* sum := i64 (rel + lookup_total_excess 8 (value b)) in
    if (sum =? 0) || ((get_minimum_excess e <=? sum) && (sum <=? get_maximum_excess e)) then let* i := answer_query e' rel in Ok (inr i) else Ok (inl sum)).
Proof.
  intros Hb Hc Hn Hr. destruct (chk_entry_inv b e e' Hb Hc) as (Ht & Hmn & Hmx & Hd1 & Hd2 & Ha). pose proof (ex_bound b 8) as Hb8. rewrite Hb in Hr. rewrite Ht, i64_ok by lia. cbn [bind].
  unfold bwd_answer. rewrite Hb. destruct (Z.leb_spec (Z.abs rel) 8) as [Hs|Hs].
  - destruct (Ha rel ltac:(lia)) as [_ Ha1]. specialize (Ha1 Hn). destruct (query_ok e' rel ltac:(lia)) as (k & Ek). rewrite Ek in *. cbn [bind res_opt] in *.
    pose proof (find_rev_range_spec (fun k => excess_before b k =? rel + excess_before b (lenN b)) (lenN b)) as Hf. unfold lq_bwd_ref in Ha1. rewrite <- Ha1, Hb in Hf. clear Ha Ha1.
    destruct ((rel + excess_before b 8 =? 0) || _).
    + left. exists k. destruct Hf as (H1 & H2 & H3). apply Z.eqb_eq in H2. repeat split; auto. intros j Hj. apply H3 in Hj. now apply Z.eqb_neq in Hj.
    + right. split; [reflexivity|]. intros j Hj. apply Hf in Hj. now apply Z.eqb_neq in Hj.
  - right. split.
    + destruct (Z.eqb_spec (rel + excess_before b 8) 0) as [E|E]; [exfalso; lia|]. cbn [orb].
      destruct (Z.leb_spec (get_minimum_excess e) (rel + excess_before b 8)), (Z.leb_spec (rel + excess_before b 8) (get_maximum_excess e)); try reflexivity. exfalso. lia.
    + intros j Hj. pose proof (ex_dist b j (8 - j)) as Hd. replace (j + (8 - j))%N with 8%N in Hd by lia. lia.
Qed.

Lemma lookup8_ok : lookup_ok lookup8.
Proof.
  destruct (tables_gen _ _ chk_tables_true) as (t & t' & Et & Et' & Hl & Hl' & Hc).
  assert (Hf : forall v rel, (v < 256)%N -> lq_process_fwd v rel =
    (if (rel <=? get_maximum_excess (nthN 0%N t v)) && (get_minimum_excess (nthN 0%N t v) <=? rel) then let* i := answer_query (nthN 0%N t v) rel in Ok (inr i)
                    else let* rel' := i64 (rel - lookup_total_excess 8 v) in Ok (inl rel'))).
  { intros v rel Hv. unfold lq_process_fwd. rewrite Et. cbn [bind]. rewrite (idx_ok 0%N) by (rewrite Hl; exact Hv). reflexivity. }
  assert (Hb : forall v rel, (v < 256)%N -> lq_process_bwd v rel =
    let* sum := i64 (rel + lookup_total_excess 8 v) in
    if (sum =? 0) || ((get_minimum_excess (nthN 0%N t v) <=? sum) && (sum <=? get_maximum_excess (nthN 0%N t v))) then let* i := answer_query (nthN 0%N t' v) rel in Ok (inr i) else Ok (inl sum)).
  { intros v rel Hv. unfold lq_process_bwd. rewrite Et, Et'. cbn [bind]. rewrite !(idx_ok 0%N) by (rewrite ?Hl, ?Hl'; exact Hv). reflexivity. }
  clear Et Et'. split; cbn [lk_size lookup8 lk_fwd lk_bwd].
  - reflexivity.
  - discriminate.
  - intros b rel Hlb Hr. assert (Hv : (value b < 256)%N) by (pose proof (value_lt b) as Hv; rewrite Hlb in Hv; exact Hv).
    rewrite Hf by exact Hv. eapply fwd_entry_ok; [exact Hlb|apply Hc; exact Hv|exact Hr].
  - intros b rel Hlb Hn Hr. assert (Hv : (value b < 256)%N) by (pose proof (value_lt b) as Hv; rewrite Hlb in Hv; exact Hv).
    rewrite Hb by exact Hv. eapply bwd_entry_ok; [exact Hlb|apply Hc; exact Hv|exact Hn|exact Hr].
Qed.
