(** * The index-based iterators refine a list consumed from both ends. *)
From Verif Require Import Base Spec BaseFacts IterSpec IterFacts GenIterModel.

(** The number of elements left. *)
Definition gi_rem (it : gen_iter) : N :=
  match gi_back it with Some b => b + 1 | None => 0 end - gi_index it.

(** Invariant over a vector with [n] elements. *)
Record gi_inv (n : N) (it : gen_iter) : Prop := {
  gi_i1 : gi_back it = None -> gi_index it = 0;
  gi_i2 : forall b, gi_back it = Some b -> b < n /\ gi_index it <= b + 1
}.

Lemma gi_inv_bound n it : gi_inv n it -> gi_index it + gi_rem it <= n.
Proof.
  intros [H1 H2]. unfold gi_rem. destruct (gi_back it) as [b|].
  - destruct (H2 b eq_refl). lia.
  - rewrite H1 by auto. lia.
Qed.

Lemma gi_new_inv n : gi_inv n (gi_new n) /\ gi_index (gi_new n) = 0 /\ gi_rem (gi_new n) = n.
Proof.
  unfold gi_new. destruct (N.eqb_spec n 0) as [->|E]; cbn.
  - repeat split; auto; discriminate.
  - split; [|split; [auto|unfold gi_rem; cbn; lia]].
    split; cbn; [discriminate|]. intros b [= <-]. lia.
Qed.

Lemma gi_empty_rem n it : gi_inv n it -> gi_empty it = (gi_rem it =? 0).
Proof.
  intros [H1 H2]. unfold gi_empty, some_gt, gi_rem. destruct (gi_back it) as [b|]; [|now rewrite H1].
  destruct (N.ltb_spec b (gi_index it)), (N.eqb_spec (b + 1 - gi_index it) 0); auto; lia.
Qed.

Lemma gi_len_ok n it : n < U64 -> gi_inv n it -> gi_len it = gi_rem it.
Proof.
  intros Hn [H1 H2]. unfold gi_len, gi_rem, wrapping_add, wrapping_sub. destruct (gi_back it) as [b|].
  - destruct (H2 b eq_refl) as [Hb Hi].
    destruct (N.eqb_spec (gi_index it) (b + 1)) as [E|E].
    + rewrite E. replace (b + U64 - (b + 1)) with (U64 - 1) by lia. rewrite (N.mod_small (U64 - 1)) by lia.
      replace (U64 - 1 + 1) with U64 by lia. rewrite N.mod_same by lia. lia.
    + replace (b + U64 - gi_index it) with (b - gi_index it + 1 * U64) by lia.
      rewrite N.mod_add by lia. rewrite (N.mod_small (b - gi_index it)) by lia. rewrite N.mod_small; lia.
  - rewrite H1 by auto. reflexivity.
Qed.

Lemma gi_advance_by_ok n it k : n < U64 -> gi_inv n it -> gi_index it + k < U64 ->
  if k <=? gi_rem it
  then gi_advance_by it k = Ok (Some (mkgi (gi_index it + k) (gi_back it))) /\
       gi_inv n (mkgi (gi_index it + k) (gi_back it)) /\
       gi_rem (mkgi (gi_index it + k) (gi_back it)) = gi_rem it - k
  else gi_advance_by it k = Ok None.
Proof.
  intros Hn I Hk. pose proof (gi_len_ok n it Hn I) as El. pose proof (gi_empty_rem n it I) as Ee.
  unfold gi_empty in Ee. destruct I as [H1 H2].
  unfold gi_advance_by. rewrite El, Ee. clear El Ee. unfold gi_rem in *. cbn [gi_index gi_back].
  destruct (N.eqb_spec k 0) as [->|E].
  { destruct (N.leb_spec 0 (match gi_back it with Some b => b + 1 | None => 0 end - gi_index it)); [|lia].
    rewrite N.add_0_r. destruct it; cbn in *. repeat split; auto; try lia; apply (H2 _ H0). }
  rewrite add64_ok by auto. cbn [bind]. unfold some_gt. destruct (gi_back it) as [b|].
  - destruct (H2 b eq_refl) as [Hb Hi].
    destruct (N.leb_spec k (b + 1 - gi_index it)), (N.ltb_spec b (gi_index it + k - 1)); try lia.
    + split; [auto|]. split; [|lia]. split; cbn; [discriminate|]. intros b' [= <-]; lia.
    + destruct (N.eqb_spec (b + 1 - gi_index it) 0); auto. rewrite sub_ok by lia. cbn [bind].
      destruct (N.eqb_spec (k - (b + 1 - gi_index it)) 0); [lia|auto].
  - rewrite H1 by auto. destruct (N.leb_spec k (0 - 0)); [lia|]. reflexivity.
Qed.

Lemma gi_advance_by_overflow it k : U64 <= gi_index it + k -> k <> 0 -> gi_advance_by it k = Panic.
Proof.
  intros H Hk. unfold gi_advance_by, add64. destruct (N.eqb_spec k 0); [lia|].
  destruct (N.ltb_spec (gi_index it + k) U64); [lia|]. reflexivity.
Qed.

Lemma gi_advance_back_by_ok n it k : gi_inv n it ->
  if k <=? gi_rem it
  then exists it', gi_advance_back_by it k = Ok (Some it') /\ gi_index it' = gi_index it /\
       gi_inv n it' /\ gi_rem it' = gi_rem it - k
  else gi_advance_back_by it k = Ok None.
Proof.
  intros I. pose proof (gi_empty_rem n it I) as Ee. unfold gi_advance_back_by. rewrite Ee. clear Ee.
  pose proof I as [H1 H2]. unfold gi_rem in *.
  destruct (N.eqb_spec k 0) as [->|E].
  { destruct (N.leb_spec 0 (match gi_back it with Some b => b + 1 | None => 0 end - gi_index it)); [|lia].
    exists it. repeat split; auto; try lia; apply (H2 _ H0). }
  destruct (gi_back it) as [b|]; cbn [gi_back gi_index].
  - destruct (H2 b eq_refl) as [Hb Hi]. destruct (N.eqb_spec (b + 1 - gi_index it) 0).
    + destruct (N.leb_spec k (b + 1 - gi_index it)); [lia|auto].
    + rewrite sub_ok by lia. cbn [bind].
      destruct (N.leb_spec k (b + 1 - gi_index it)), (N.ltb_spec (b - gi_index it + 1) k); try lia; auto.
      eexists. split; [reflexivity|]. cbn [gi_back gi_index].
      split; [auto|]. destruct (N.leb_spec k b).
      * split; [|lia]. split; cbn; [discriminate|]. intros b' [= <-]; lia.
      * split; [|lia]. split; cbn; [lia|discriminate].
  - rewrite H1 by auto. destruct (N.leb_spec k (0 - 0)); [lia|]. reflexivity.
Qed.

Section Refine.
Context {A : Type}.
Variables (l : list A) (get : N -> res (option A)) (get_unchecked : N -> res A).
Hypothesis Hlen : lenN l < U64.
Hypothesis Hget : forall i, i < lenN l -> get i = Ok (getN l i).
Hypothesis Hgetu : forall i x, getN l i = Some x -> get_unchecked i = Ok x.

Definition gi_R (it : gen_iter) (w : list A) : Prop :=
  gi_inv (lenN l) it /\ w = sliceN (gi_index it) (gi_rem it) l.

Lemma gi_R_len it w : gi_R it w -> lenN w = gi_rem it.
Proof. intros [I ->]. apply lenN_sliceN. now apply gi_inv_bound. Qed.

Lemma getN_in i : i < lenN l -> exists v, getN l i = Some v.
Proof. intros H. destruct (getN l i) eqn:E; eauto. destruct l as [|d l0]; [cbn in H; lia|]. rewrite (getN_ok d) in E by auto. discriminate. Qed.

Lemma gi_next_ok it w : gi_R it w ->
  exists it', gi_next get it = Ok (it', getN w 0) /\ gi_R it' (dropN 1 w).
Proof.
  intros R. pose proof (gi_R_len it w R) as El. destruct R as [I Hw]. pose proof (gi_inv_bound _ _ I) as B.
  unfold gi_next. rewrite (gi_empty_rem _ _ I).
  pose proof (window_nth l (gi_index it) (gi_rem it) 0 B) as W. rewrite <- Hw in W. cbn [iter_spec] in W.
  change (0 + 1) with 1 in W.
  destruct (N.ltb_spec 0 (gi_rem it)), (N.eqb_spec (gi_rem it) 0); try lia; injection W as W1 W2; rewrite W1, W2.
  - rewrite N.add_0_r in *. rewrite Hget by lia. cbn [bind].
    destruct (getN_in (gi_index it) ltac:(lia)) as [v ->].
    eexists. split; [reflexivity|]. pose proof I as [H1 H2]. unfold gi_rem in *. split.
    + split; cbn.
      * intros Hb. rewrite Hb in *. lia.
      * intros b Hb. specialize (H2 b Hb). rewrite Hb in *. lia.
    + unfold gi_rem. cbn. f_equal. lia.
  - eexists. split; [reflexivity|]. split; auto. replace (gi_rem it) with 0 by lia. now rewrite sliceN_0.
Qed.

Lemma gi_next_back_ok it w : gi_R it w ->
  exists it', gi_next_back get it = Ok (it', getN (rev w) 0) /\ gi_R it' (takeN (lenN w - 1) w).
Proof.
  intros R. pose proof (gi_R_len it w R) as El. destruct R as [I Hw]. pose proof (gi_inv_bound _ _ I) as B.
  unfold gi_next_back. fold (gi_empty it). rewrite (gi_empty_rem _ _ I).
  pose proof (window_nth_back l (gi_index it) (gi_rem it) 0 B) as W. rewrite <- Hw in W. cbn [iter_spec] in W.
  change (0 + 1) with 1 in W.
  destruct (N.ltb_spec 0 (gi_rem it)), (N.eqb_spec (gi_rem it) 0); try lia; injection W as W1 W2; rewrite W1, W2.
  - pose proof I as [H1 H2]. unfold gi_rem in *. destruct (gi_back it) as [b|]; [|lia].
    destruct (H2 b eq_refl) as [Hb Hi].
    replace (gi_index it + (b + 1 - gi_index it) - 1 - 0) with b by lia.
    rewrite Hget by lia. cbn [bind]. destruct (getN_in b ltac:(lia)) as [v ->].
    eexists. split; [reflexivity|]. unfold gi_dec. split.
    + split; cbn; destruct (N.eqb_spec b 0); try discriminate; try lia. intros b' [= <-]; lia.
    + unfold gi_rem. cbn. f_equal. destruct (N.eqb_spec b 0); lia.
  - eexists. split; [reflexivity|]. split; auto. replace (gi_rem it) with 0 by lia. now rewrite sliceN_0.
Qed.

(** [nth k] up to the remaining length; beyond it, nothing is consumed. *)
Lemma gi_nth_ok it w k : gi_R it w -> k <= lenN w ->
  exists it', gi_nth get it k = Ok (it', getN w k) /\ gi_R it' (dropN (k + 1) w).
Proof.
  intros R Hk. pose proof (gi_R_len it w R) as El. destruct R as [I Hw]. pose proof (gi_inv_bound _ _ I) as B.
  pose proof (gi_advance_by_ok (lenN l) it k Hlen I ltac:(lia)) as Ha.
  destruct (N.leb_spec k (gi_rem it)); [|lia]. destruct Ha as (E & I' & Er).
  unfold gi_nth. rewrite E. cbn [bind].
  assert (R' : gi_R (mkgi (gi_index it + k) (gi_back it)) (dropN k w)).
  { split; auto. rewrite Er, Hw. cbn [gi_index]. unfold sliceN. now rewrite dropN_takeN, dropN_dropN. }
  destruct (gi_next_ok _ _ R') as (it' & E' & R''). exists it'. rewrite E'. rewrite getN_dropN, N.add_0_r.
  rewrite dropN_dropN in R''. auto.
Qed.
Lemma gi_nth_over it w k : gi_R it w -> lenN w < k -> gi_index it + k < U64 ->
  gi_nth get it k = Ok (it, None).
Proof.
  intros R Hk Ho. pose proof (gi_R_len it w R) as El. destruct R as [I Hw].
  pose proof (gi_advance_by_ok (lenN l) it k Hlen I Ho) as Ha.
  destruct (N.leb_spec k (gi_rem it)); [lia|]. unfold gi_nth. now rewrite Ha.
Qed.
Lemma gi_nth_back_ok it w k : gi_R it w -> k <= lenN w ->
  exists it', gi_nth_back get it k = Ok (it', getN (rev w) k) /\ gi_R it' (takeN (lenN w - (k + 1)) w).
Proof.
  intros R Hk. pose proof (gi_R_len it w R) as El. destruct R as [I Hw]. pose proof (gi_inv_bound _ _ I) as B.
  pose proof (gi_advance_back_by_ok (lenN l) it k I) as Ha.
  destruct (N.leb_spec k (gi_rem it)); [|lia]. destruct Ha as (it1 & E & Ei & I' & Er).
  unfold gi_nth_back. rewrite E. cbn [bind].
  assert (R' : gi_R it1 (takeN (lenN w - k) w)).
  { split; auto. rewrite Er, Ei, El. rewrite Hw. unfold sliceN. rewrite takeN_min. f_equal. lia. }
  destruct (gi_next_back_ok _ _ R') as (it' & E' & R''). exists it'. rewrite E'.
  assert (Hlen' : lenN (takeN (lenN w - k) w) = lenN w - k) by (rewrite lenN_takeN; lia).
  rewrite Hlen' in R''. split.
  - do 2 f_equal. rewrite !getN_rev, Hlen'.
    destruct (N.ltb_spec 0 (lenN w - k)), (N.ltb_spec k (lenN w)); try lia; auto.
    rewrite getN_takeN. destruct (N.ltb_spec (lenN w - k - 1 - 0) (lenN w - k)); [|lia]. f_equal. lia.
  - rewrite takeN_min in R''. now replace (lenN w - (k + 1)) with (N.min (lenN w - k - 1) (lenN w - k)) by lia.
Qed.
Lemma gi_nth_back_over it w k : gi_R it w -> lenN w < k -> gi_nth_back get it k = Ok (it, None).
Proof.
  intros R Hk. pose proof (gi_R_len it w R) as El. destruct R as [I Hw].
  pose proof (gi_advance_back_by_ok (lenN l) it k I) as Ha.
  destruct (N.leb_spec k (gi_rem it)); [lia|]. unfold gi_nth_back. now rewrite Ha.
Qed.

Lemma gi_last_ok it w : gi_R it w -> gi_last get_unchecked it = Ok (getN (rev w) 0).
Proof.
  intros R. pose proof (gi_R_len it w R) as El. destruct R as [I Hw]. pose proof (gi_inv_bound _ _ I) as B.
  unfold gi_last. rewrite (gi_empty_rem _ _ I), getN_rev, El.
  destruct (N.eqb_spec (gi_rem it) 0), (N.ltb_spec 0 (gi_rem it)); try lia; auto.
  rewrite Hw, getN_sliceN. destruct (N.ltb_spec (gi_rem it - 1 - 0) (gi_rem it)); [|lia].
  unfold gi_rem in *. destruct (gi_back it) as [b|]; [|lia].
  destruct (getN_in b ltac:(lia)) as [v Hv]. rewrite (Hgetu b v Hv). cbn [bind]. f_equal.
  rewrite <- Hv. f_equal. lia.
Qed.

Lemma gi_step_ok it w op : gi_R it w ->
  match op with INth n | INthBack n => n < lenN w | _ => True end ->
  exists it', gi_step get it op = Ok (it', snd (iter_spec w op)) /\ gi_R it' (fst (iter_spec w op)).
Proof.
  intros R Hop. destruct op; cbn [gi_step iter_spec fst snd].
  - destruct (gi_next_ok it w R) as (it' & -> & R'). exists it'. auto.
  - destruct (gi_next_back_ok it w R) as (it' & -> & R'). exists it'. auto.
  - destruct (gi_nth_ok it w n R ltac:(lia)) as (it' & -> & R'). exists it'. auto.
  - destruct (gi_nth_back_ok it w n R ltac:(lia)) as (it' & -> & R'). exists it'. auto.
  - exists it. rewrite (gi_R_len it w R). destruct R as [I Hw]. rewrite (gi_len_ok _ _ Hlen I). split; auto. split; auto.
Qed.

Lemma gi_new_R : gi_R (gi_new (lenN l)) l.
Proof.
  destruct (gi_new_inv (lenN l)) as (I & Hi & Hr). split; auto. rewrite Hi, Hr. symmetry. apply sliceN_all.
Qed.

Lemma gi_run_ok ops : skips_inside true true l ops ->
  iter_run (gi_step get) (gi_new (lenN l)) ops = Ok (iter_spec_run l ops).
Proof.
  intros Hs. apply (iter_refines gi_R true true); auto using gi_new_R.
  intros s w op R Hop. apply gi_step_ok; auto. 
Qed.
End Refine.
