(** * Properties C105, C106: balanced parenthesis trees in a release build. *)
From Verif Require Import Base Spec BaseFacts WordFacts BitVecModel BitVecProofs RsVecModel RsVecProofs RsVecSelect RsEqProofs
  BpModel BpExcess BpLookup BpMmt BpSearch BpBlock BpTreeSpec BpTreeFacts BpTreeProofs PropsBp BpReleaseModel.

(** ** Where the debug build answers, the release build gives the same answer. *)
Definition ref {A} (a b : res A) : Prop := forall r, a = Ok r -> b = Ok r.
Lemma ref_refl {A} (a : res A) : ref a a.
Proof. now intros r. Qed.
Lemma ref_panic {A} (b : res A) : ref Panic b.
Proof. intros r. discriminate. Qed.
Lemma ref_bind {A C} (a b : res A) (f g : A -> res C) : ref a b -> (forall x, ref (f x) (g x)) -> ref (bind a f) (bind b g).
Proof.
  intros H1 H2 r. destruct a as [x| |]; cbn [bind]; intros E; try discriminate. rewrite (H1 x eq_refl). cbn [bind]. now apply H2.
Qed.
Lemma wrap_small z : (-9223372036854775808 <= z <= 9223372036854775807)%Z -> wrap_i64 z = z.
Proof. intros H. unfold wrap_i64. rewrite Z.mod_small by lia. lia. Qed.
Lemma i64_cases z : (i64 z = Ok z /\ wrap_i64 z = z) \/ i64 z = Panic.
Proof.
  unfold i64. destruct (Z.leb_spec (-9223372036854775808) z), (Z.leb_spec z 9223372036854775807); cbn; auto.
  left. split; [reflexivity|]. apply wrap_small. lia.
Qed.
Lemma ref_assert {A} b (f : unit -> res A) g : (b = true -> ref (f tt) g) -> ref (bind (assert b) f) g.
Proof. intros H. destruct b; cbn [assert bind]; [now apply H|apply ref_panic]. Qed.
Ltac rw64 := match goal with |- ref (bind (i64 ?z) _) _ =>
  destruct (i64_cases z) as [[-> ->]| ->]; cbn [bind]; [|apply ref_panic] end.
Lemma ref_forM_ret {A S R} (l : list A) (f g : S -> A -> res (S + R)) : (forall s x, ref (f s x) (g s x)) ->
  forall s, ref (forM_ret l s f) (forM_ret l s g).
Proof.
  intros H. induction l as [|x l IH]; intros s; [apply ref_refl|]. cbn [forM_ret]. apply ref_bind; [apply H|].
  intros [s'|r]; [apply IH|apply ref_refl].
Qed.

(** The release counterpart of a lookup module. *)
Definition rel_lookup (lk lkr : lookup) : Prop := (lk = lookup8 /\ lkr = lookup8_rel) \/ (lk = lookup16 /\ lkr = lookup16_rel).
Record lookup_ref (lk lkr : lookup) : Prop := {
  lr_size : lk_size lkr = lk_size lk;
  lr_fwd : forall v rel, ref (lk_fwd lk v rel) (lk_fwd lkr v rel);
  lr_bwd : forall v rel, ref (lk_bwd lk v rel) (lk_bwd lkr v rel) }.
Lemma answer_ref e rel : ref (answer_query e rel) (Ok (answer_query_rel e rel)).
Proof.
  unfold answer_query. apply ref_assert. intros H. apply Z.leb_le in H. unfold answer_query_rel.
  rewrite wrap_small by lia. rewrite (Z.mod_small (rel + 8)) by lia. rewrite N.mod_small by lia. apply ref_refl.
Qed.
Local Opaque lt_table PAREN_BLOCK_LOOKUP_FWD PAREN_BLOCK_LOOKUP_BWD.
Lemma rel_lookup_ref lk lkr : rel_lookup lk lkr -> lookup_ref lk lkr.
Proof.
  intros [[-> ->]|[-> ->]]; (split; [first [exact (eq_refl 8)|exact (eq_refl 16)]| |]); intros v rel;
    [change (ref (lq_process_fwd v rel) (lq_process_fwd_rel v rel))|change (ref (lq_process_bwd v rel) (lq_process_bwd_rel v rel))
    |change (ref (lt_process_fwd 16 6 v rel) (lt_process_fwd_rel 16 6 v rel))|change (ref (lt_process_bwd 16 6 v rel) (lt_process_bwd_rel 16 6 v rel))].
  - unfold lq_process_fwd, lq_process_fwd_rel. apply ref_bind; [apply ref_refl|]. intros tab. apply ref_bind; [apply ref_refl|]. intros e.
    destruct (_ && _)%bool.
    + intros r. destruct (answer_query e rel) as [i| |] eqn:E; cbn [bind]; try discriminate. apply answer_ref in E. injection E as ->. auto.
    + rw64. apply ref_refl.
  - unfold lq_process_bwd, lq_process_bwd_rel. rw64. apply ref_bind; [apply ref_refl|]. intros tab. apply ref_bind; [apply ref_refl|]. intros e.
    destruct (_ || _)%bool; [|apply ref_refl]. apply ref_bind; [apply ref_refl|]. intros tab'. apply ref_bind; [apply ref_refl|]. intros e'.
    intros r. destruct (answer_query e' rel) as [i| |] eqn:E; cbn [bind]; try discriminate. apply answer_ref in E. injection E as ->. auto.
  - unfold lt_process_fwd, lt_process_fwd_rel. apply ref_bind; [apply ref_refl|]. intros tab. apply ref_bind; [apply ref_refl|]. intros e.
    destruct (_ && _)%bool.
    + apply ref_bind; [|intros; apply ref_refl]. apply ref_forM_ret. intros s x. unfold lt_scan_fwd, lt_scan_fwd_rel. rw64. apply ref_refl.
    + rw64. apply ref_refl.
  - unfold lt_process_bwd, lt_process_bwd_rel. rw64. apply ref_bind; [apply ref_refl|]. intros tab. apply ref_bind; [apply ref_refl|]. intros e.
    destruct (_ || _)%bool; [|apply ref_refl].
    apply ref_bind; [|intros; apply ref_refl]. apply ref_forM_ret. intros s x. unfold lt_scan_bwd, lt_scan_bwd_rel. rw64. apply ref_refl.
Qed.

Lemma first_leaf_ref nodes : ref (mmt_first_leaf nodes) (mmt_first_leaf_rel nodes).
Proof. unfold mmt_first_leaf. apply ref_assert. intros _. apply ref_refl. Qed.
Lemma is_leaf_ref nodes i : ref (mmt_is_leaf nodes i) (mmt_is_leaf_rel nodes i).
Proof. apply ref_bind; [apply first_leaf_ref|intros; apply ref_refl]. Qed.
Lemma fwd_down_ref nodes fuel : forall node rel, ref (mmt_fwd_down fuel nodes node rel) (mmt_fwd_down_rel fuel nodes node rel).
Proof.
  induction fuel as [|fuel IH]; intros node rel; [apply ref_refl|]. cbn [mmt_fwd_down mmt_fwd_down_rel].
  apply ref_assert. intros _. apply ref_bind; [apply is_leaf_ref|]. intros [|]; [apply ref_refl|].
  destruct (mmt_left_child nodes node) as [l|]; [|apply ref_refl]. apply ref_bind; [apply ref_refl|]. intros nl.
  destruct (_ && _)%bool; [apply IH|]. destruct (mmt_right_child nodes node) as [r|]; [|apply ref_refl]. rw64.
  apply ref_bind; [apply ref_refl|]. intros nr. destruct (_ && _)%bool; [apply IH|apply ref_refl].
Qed.
Lemma fwd_up_ref nodes fuel : forall node rel, ref (mmt_fwd_up fuel nodes node rel) (mmt_fwd_up_rel fuel nodes node rel).
Proof.
  induction fuel as [|fuel IH]; intros node rel; [apply ref_refl|]. cbn [mmt_fwd_up mmt_fwd_up_rel].
  apply ref_assert. intros _. destruct (negb _).
  - destruct (mmt_parent nodes node) as [p|]; [|apply ref_refl]. destruct (p =? 0); [apply ref_refl|apply IH].
  - destruct (mmt_right_sibling nodes node) as [s|]; [|apply ref_refl]. apply ref_bind; [apply ref_refl|]. intros ns.
    destruct (_ && _)%bool; [apply fwd_down_ref|]. destruct (mmt_parent nodes node) as [p|]; [|apply ref_refl].
    destruct (p =? 0); [apply ref_refl|]. rw64. apply IH.
Qed.
Lemma mmt_fwd_ref nodes b rel : ref (mmt_fwd_search nodes b rel) (mmt_fwd_search_rel nodes b rel).
Proof.
  apply ref_bind; [apply first_leaf_ref|]. intros f. destruct (_ <=? _); [apply ref_refl|].
  apply ref_bind; [apply ref_refl|]. intros _. apply ref_bind; [apply fwd_up_ref|]. intros; apply ref_refl.
Qed.
Lemma bwd_test_ref {A} n rel (f : bool -> res A) g : (forall t, mmt_bwd_test n rel = Ok t -> ref (f t) g) -> ref (bind (mmt_bwd_test n rel) f) g.
Proof. intros H. destruct (mmt_bwd_test n rel) as [t| |]; cbn [bind]; [now apply H|apply ref_panic|intros r; discriminate]. Qed.
Lemma bwd_test_same n rel t : mmt_bwd_test n rel = Ok t -> mmt_bwd_test_rel n rel = t.
Proof.
  unfold mmt_bwd_test, mmt_bwd_test_rel. destruct (i64_cases (rel + ntotal n)) as [[-> ->]| ->]; cbn [bind]; intros E; [now injection E|discriminate].
Qed.
Lemma bwd_down_ref nodes fuel : forall node rel, ref (mmt_bwd_down fuel nodes node rel) (mmt_bwd_down_rel fuel nodes node rel).
Proof.
  induction fuel as [|fuel IH]; intros node rel; [apply ref_refl|]. cbn [mmt_bwd_down mmt_bwd_down_rel].
  apply ref_assert. intros _. apply ref_bind; [apply is_leaf_ref|]. intros [|]; [apply ref_refl|].
  destruct (mmt_right_child nodes node) as [r|]; [|apply ref_refl]. apply ref_bind; [apply ref_refl|]. intros nr.
  apply bwd_test_ref. intros t Et. rewrite (bwd_test_same _ _ _ Et). destruct t; [apply IH|].
  destruct (mmt_left_child nodes node) as [l|]; [|apply ref_refl]. rw64.
  apply ref_bind; [apply ref_refl|]. intros nl. apply bwd_test_ref. intros t Et'. rewrite (bwd_test_same _ _ _ Et'). destruct t; [apply IH|apply ref_refl].
Qed.
Lemma bwd_up_ref nodes fuel : forall node rel, ref (mmt_bwd_up fuel nodes node rel) (mmt_bwd_up_rel fuel nodes node rel).
Proof.
  induction fuel as [|fuel IH]; intros node rel; [apply ref_refl|]. cbn [mmt_bwd_up mmt_bwd_up_rel].
  apply ref_assert. intros _. destruct (mmt_is_left_child node).
  - destruct (mmt_parent nodes node) as [p|]; [|apply ref_refl]. destruct (p =? 0); [apply ref_refl|apply IH].
  - destruct (mmt_left_sibling node) as [s|]; [|apply ref_refl]. apply ref_bind; [apply ref_refl|]. intros ns.
    apply bwd_test_ref. intros t Et. rewrite (bwd_test_same _ _ _ Et). destruct t; [apply bwd_down_ref|].
    destruct (mmt_parent nodes node) as [p|]; [|apply ref_refl]. destruct (p =? 0); [apply ref_refl|]. rw64. apply IH.
Qed.
Lemma mmt_bwd_ref nodes b rel : ref (mmt_bwd_search nodes b rel) (mmt_bwd_search_rel nodes b rel).
Proof.
  apply ref_bind; [apply first_leaf_ref|]. intros f. destruct (_ <=? _); [apply ref_refl|].
  apply ref_bind; [apply ref_refl|]. intros _. apply ref_bind; [apply bwd_up_ref|]. intros; apply ref_refl.
Qed.
Lemma scan_fwd_ref rs s x : ref (scan_fwd rs s x) (scan_fwd_rel rs s x).
Proof. apply ref_bind; [apply ref_refl|]. intros bit. rw64. apply ref_refl. Qed.
Lemma scan_bwd_ref rs s x : ref (scan_bwd rs s x) (scan_bwd_rel rs s x).
Proof. apply ref_bind; [apply ref_refl|]. intros bit. rw64. apply ref_refl. Qed.
Lemma look_ref w f g rs s x : (forall v rel, ref (f v rel) (g v rel)) -> ref (look_step w f rs s x) (look_step w g rs s x).
Proof.
  intros H. apply ref_bind; [apply ref_refl|]. intros v. apply ref_bind; [apply ref_refl|]. intros _.
  apply ref_bind; [apply H|]. intros; apply ref_refl.
Qed.
Lemma sub_usub {A} a b (f : N -> res A) g : ref (f (usub a b)) g -> ref (bind (sub a b) f) g.
Proof.
  intros H. unfold sub. unfold usub in H. destruct (b <=? a); cbn [bind]; [exact H|apply ref_panic].
Qed.

Section Refine.
Variables (lk lkr : lookup) (B : N).
Hypothesis Hlr : lookup_ref lk lkr.
Lemma fwd_block_ref t start block rel : ref (bp_fwd_search_block lk B t start block rel) (bp_fwd_search_block_rel lkr B t start block rel).
Proof using Hlr.
  unfold bp_fwd_search_block, bp_fwd_search_block_rel. rewrite (lr_size _ _ Hlr).
  apply ref_bind; [apply ref_forM_ret; intros; apply scan_fwd_ref|]. intros [rel1|i]; [|apply ref_refl].
  apply ref_bind; [apply ref_forM_ret; intros; apply look_ref, Hlr|]. intros [rel2|i]; [|apply ref_refl].
  apply ref_forM_ret; intros; apply scan_fwd_ref.
Qed.
Lemma fwd_ref t i rel : ref (bp_fwd_search lk B t i rel) (bp_fwd_search_rel lkr B t i rel).
Proof using Hlr.
  unfold bp_fwd_search, bp_fwd_search_rel. apply sub_usub. destruct (_ <=? i); [apply ref_refl|].
  apply ref_bind; [apply fwd_block_ref|]. intros [rel1|j]; [|apply ref_refl].
  apply ref_bind; [apply mmt_fwd_ref|]. intros [[b rel2]|]; [|apply ref_refl]. apply sub_usub.
  apply ref_bind; [apply fwd_block_ref|]. intros; apply ref_refl.
Qed.
Lemma bwd_block_ref t start block rel : ref (bp_bwd_search_block lk B t start block rel) (bp_bwd_search_block_rel lkr B t start block rel).
Proof using Hlr.
  unfold bp_bwd_search_block, bp_bwd_search_block_rel. rewrite (lr_size _ _ Hlr). apply sub_usub.
  apply ref_bind; [apply ref_forM_ret; intros; apply scan_bwd_ref|]. intros [rel1|i]; [|apply ref_refl].
  apply ref_forM_ret; intros; apply look_ref, Hlr.
Qed.
Lemma bwd_ref t i rel : ref (bp_bwd_search lk B t i rel) (bp_bwd_search_rel lkr B t i rel).
Proof using Hlr.
  unfold bp_bwd_search, bp_bwd_search_rel. destruct (_ <=? i); [apply ref_refl|]. destruct (i =? 0); [apply ref_refl|].
  apply ref_bind; [apply bwd_block_ref|]. intros [rel1|j]; [|apply ref_refl].
  apply ref_bind; [apply mmt_bwd_ref|]. intros [[b rel2]|]; [|apply ref_refl].
  apply ref_bind; [apply bwd_block_ref|]. intros; apply ref_refl.
Qed.
End Refine.

(** ** A relative excess far from zero stays far from zero, even if it wraps. *)
Definition in_i64 (z : Z) : Prop := (-9223372036854775808 <= z <= 9223372036854775807)%Z.
Lemma wrap_in z : in_i64 (wrap_i64 z).
Proof. unfold in_i64, wrap_i64. pose proof (Z.mod_pos_bound (z + 9223372036854775808) 18446744073709551616). lia. Qed.
Lemma wrap_far r z k : in_i64 r -> (Z.abs (z - r) <= k)%Z -> (k <= 9223372036854775808)%Z -> (Z.abs r - k <= Z.abs (wrap_i64 z))%Z.
Proof.
  unfold in_i64. intros Hr Hz Hk. destruct (Z.leb_spec (-9223372036854775808) z), (Z.leb_spec z 9223372036854775807); try lia.
  - rewrite wrap_small by lia. lia.
  - unfold wrap_i64. rewrite <- (Z.mod_add _ (-1)) by lia. rewrite Z.mod_small by lia. lia.
  - unfold wrap_i64. rewrite <- (Z.mod_add _ 1) by lia. rewrite Z.mod_small by lia. lia.
Qed.
(** [r'] is [r] moved by at most [k]. *)
Definition moved (r : Z) (k : Z) (r' : Z) : Prop := in_i64 r' /\ (Z.abs r - k <= Z.abs r')%Z.
Lemma moved_wrap r z k : in_i64 r -> (Z.abs (z - r) <= k)%Z -> (k <= 9223372036854775808)%Z -> moved r k (wrap_i64 z).
Proof. intros. split; [apply wrap_in|now apply wrap_far]. Qed.
Lemma moved_0 r : in_i64 r -> moved r 0 r.
Proof. intros H. split; [exact H|lia]. Qed.
Lemma moved_trans r k r' k' r'' : moved r k r' -> moved r' k' r'' -> moved r (k + k') r''.
Proof. intros [A1 A2] [B1 B2]. split; [exact B1|lia]. Qed.
Lemma moved_le r k k' r' : moved r k r' -> (k <= k')%Z -> moved r k' r'.
Proof. intros [A1 A2] H. split; [exact A1|lia]. Qed.

(** A lookup whose relative excess is far from zero finds nothing. *)
Record lookup_far (lkr : lookup) : Prop := {
  lf_fwd : forall b rel, lenN b = lk_size lkr -> in_i64 rel -> (100 < Z.abs rel)%Z ->
    exists r, lk_fwd lkr (value b) rel = Ok (inl r) /\ moved rel (Z.of_N (lk_size lkr)) r;
  lf_bwd : forall b rel, lenN b = lk_size lkr -> in_i64 rel -> (100 < Z.abs rel)%Z ->
    exists r, lk_bwd lkr (value b) rel = Ok (inl r) /\ moved rel (Z.of_N (lk_size lkr)) r }.
Lemma field_bound a n : (Z.of_N (N.land a (N.ones n)) < 2 ^ Z.of_N n)%Z.
Proof.
  rewrite N.land_ones. pose proof (N.mod_lt a (2 ^ n) ltac:(apply N.pow_nonzero; discriminate)) as H.
  replace (2 ^ Z.of_N n)%Z with (Z.of_N (2 ^ n)) by now rewrite N2Z.inj_pow. lia.
Qed.
Lemma lq_fields e : (-8 <= get_minimum_excess e /\ get_maximum_excess e <= 23)%Z.
Proof.
  unfold get_minimum_excess, get_maximum_excess. pose proof (field_bound e 5) as H. change (N.ones 5) with 31 in H. change (2 ^ Z.of_N 5)%Z with 32%Z in H. lia.
Qed.
Lemma lt_fields e : (-16 <= lt_minimum 16 6 e /\ lt_maximum 16 6 e <= 47)%Z.
Proof.
  unfold lt_minimum, lt_maximum. pose proof (field_bound e 6) as H. change (2 ^ Z.of_N 6)%Z with 64%Z in H. change (Z.of_N 16) with 16%Z. lia.
Qed.
Lemma total8 b : lenN b = 8 -> (Z.abs (lookup_total_excess 8 (value b)) <= 8)%Z.
Proof. intros Hb. rewrite (total_ok 8 5) by (auto; try reflexivity; discriminate). pose proof (ex_bound b 8). lia. Qed.
Lemma total16 b : lenN b = 16 -> (Z.abs (lookup_total_excess 16 (value b)) <= 16)%Z.
Proof. intros Hb. rewrite (total_ok 16 6) by (auto; try reflexivity; discriminate). pose proof (ex_bound b 16). lia. Qed.
Lemma rel_lookup_far lk lkr : rel_lookup lk lkr -> lookup_far lkr.
Proof.
  intros [[_ ->]|[_ ->]]; split; intros b rel Hb Hi Hr.
  - change (lk_size lookup8_rel) with 8 in *. change (lk_fwd lookup8_rel) with lq_process_fwd_rel.
    destruct (tables_gen _ _ chk_tables_true) as (t & t' & E1 & E2 & L1 & L2 & _). unfold lq_process_fwd_rel. rewrite E1. cbn [bind].
    pose proof (value_lt b) as Hv. rewrite Hb in Hv. change (2 ^ 8) with 256 in Hv. rewrite (idx_ok 0) by lia. cbn [bind]. set (e := nthN 0 t (value b)).
    pose proof (lq_fields e) as Hf. pose proof (total8 b Hb) as Ht.
    destruct (Z.leb_spec rel (get_maximum_excess e)), (Z.leb_spec (get_minimum_excess e) rel); cbn [andb]; try lia;
      (eexists; split; [reflexivity|]; apply moved_wrap; [exact Hi|lia|lia]).
  - change (lk_size lookup8_rel) with 8 in *. change (lk_bwd lookup8_rel) with lq_process_bwd_rel.
    destruct (tables_gen _ _ chk_tables_true) as (t & t' & E1 & E2 & L1 & L2 & _). unfold lq_process_bwd_rel. rewrite E1. cbn [bind].
    pose proof (value_lt b) as Hv. rewrite Hb in Hv. change (2 ^ 8) with 256 in Hv. rewrite (idx_ok 0) by lia. cbn [bind]. set (e := nthN 0 t (value b)).
    pose proof (lq_fields e) as Hf. pose proof (total8 b Hb) as Ht.
    assert (Hm : moved rel 8 (wrap_i64 (rel + lookup_total_excess 8 (value b)))) by (apply moved_wrap; [exact Hi|lia|lia]).
    set (sum := wrap_i64 _) in *. assert (Hs : (92 < Z.abs sum)%Z) by (destruct Hm; lia).
    destruct (Z.eqb_spec sum 0); [lia|]. destruct (Z.leb_spec (get_minimum_excess e) sum), (Z.leb_spec sum (get_maximum_excess e)); cbn [andb orb]; try lia;
      (eexists; split; [reflexivity|exact Hm]).
  - change (lk_size lookup16_rel) with 16 in *. change (lk_fwd lookup16_rel) with (lt_process_fwd_rel 16 6).
    destruct (lt_table_ok 16 6) as (t & E1 & L1 & _); [reflexivity|discriminate|discriminate|reflexivity|]. unfold lt_process_fwd_rel. rewrite E1. cbn [bind].
    pose proof (value_lt b) as Hv. rewrite Hb in Hv. rewrite (idx_ok 0) by lia. cbn [bind]. set (e := nthN 0 t (value b)).
    pose proof (lt_fields e) as Hf. pose proof (total16 b Hb) as Ht.
    destruct (Z.leb_spec rel (lt_maximum 16 6 e)), (Z.leb_spec (lt_minimum 16 6 e) rel); cbn [andb]; try lia;
      (eexists; split; [reflexivity|]; apply moved_wrap; [exact Hi|lia|lia]).
  - change (lk_size lookup16_rel) with 16 in *. change (lk_bwd lookup16_rel) with (lt_process_bwd_rel 16 6).
    destruct (lt_table_ok 16 6) as (t & E1 & L1 & _); [reflexivity|discriminate|discriminate|reflexivity|]. unfold lt_process_bwd_rel. rewrite E1. cbn [bind].
    pose proof (value_lt b) as Hv. rewrite Hb in Hv. rewrite (idx_ok 0) by lia. cbn [bind]. set (e := nthN 0 t (value b)).
    pose proof (lt_fields e) as Hf. pose proof (total16 b Hb) as Ht.
    assert (Hm : moved rel 16 (wrap_i64 (rel + lookup_total_excess 16 (value b)))) by (apply moved_wrap; [exact Hi|lia|lia]).
    set (sum := wrap_i64 _) in *. assert (Hs : (84 < Z.abs sum)%Z) by (destruct Hm; lia).
    destruct (Z.eqb_spec sum 0); [lia|]. destruct (Z.leb_spec (lt_minimum 16 6 e) sum), (Z.leb_spec sum (lt_maximum 16 6 e)); cbn [andb orb]; try lia;
      (eexists; split; [reflexivity|exact Hm]).
Qed.

(** ** Block scans far from zero *)
Section FarBlock.
Variables (lk lkr : lookup) (bv : bitvec) (rs : rsvec) (B : N).
Hypothesis Hlk : lookup_ok lk.
Hypothesis Hsz : lk_size lkr = lk_size lk.
Hypothesis Hfar : lookup_far lkr.
Hypothesis Hwf : wf bv.
Hypothesis G : rs_good bv rs.
Hypothesis HB : 0 < B.
Hypothesis HT : forall p, (Z.abs (0 - excess_before (bits bv) p) <= 9223372036854775807)%Z.
Hypothesis Hbig : lenN (bits bv) < 2 ^ 57.
Local Notation L := (lenN (bits bv)).
Local Notation w := (lk_size lk).
Definition far_by (rel : Z) (k : N) (r : res (Z + N)) : Prop := exists r', r = Ok (inl r') /\ moved rel (Z.of_N k) r'.
Lemma far_fwd_bits a b rel : a <= b -> b <= L -> in_i64 rel -> (Z.of_N (b - a) < Z.abs rel)%Z -> far_by rel (b - a) (forM_ret (range a b) rel (scan_fwd_rel rs)).
Proof using All.
  intros Hab HbL Hi Hr.
  destruct (forM_ret_range_inv (fun i s => moved rel (Z.of_N (i - a)) s) (fun _ : N => False) a b rel (scan_fwd_rel rs)) as [(s & Es & Hs)|(r & _ & [])]; [exact Hab| | |now exists s].
  - rewrite N.sub_diag. now apply moved_0.
  - intros i s H1 H2 Hm. left. unfold scan_fwd_rel. rewrite (get_bit lk bv rs B 0 Hlk Hwf G HB HT) by lia. cbn [bind].
    match goal with |- context [wrap_i64 ?z] => assert (Hm2 : moved s 1 (wrap_i64 z)) by (apply moved_wrap; [apply Hm|destruct (_ =? 1); lia|lia]) end.
    set (r' := wrap_i64 _) in *. pose proof (moved_trans _ _ _ _ _ Hm Hm2) as Hm3. destruct (Z.eqb_spec r' 0) as [E0|_]; [destruct Hm3; lia|].
    eexists. split; [reflexivity|]. eapply moved_le; [exact Hm3|lia].
Qed.
Lemma far_bwd_bits a b rel : a <= b -> b <= L -> in_i64 rel -> (Z.of_N (b - a) < Z.abs rel)%Z -> far_by rel (b - a) (forM_ret (rev (range a b)) rel (scan_bwd_rel rs)).
Proof using All.
  intros Hab HbL Hi Hr.
  destruct (forM_ret_rev_range_inv (fun i s => moved rel (Z.of_N (b - i)) s) (fun _ : N => False) a b rel (scan_bwd_rel rs)) as [(s & Es & Hs)|(r & _ & [])]; [exact Hab| | |now exists s].
  - rewrite N.sub_diag. now apply moved_0.
  - intros i s H1 H2 Hm. left. unfold scan_bwd_rel. rewrite (get_bit lk bv rs B 0 Hlk Hwf G HB HT) by lia. cbn [bind].
    match goal with |- context [wrap_i64 ?z] => assert (Hm2 : moved s 1 (wrap_i64 z)) by (apply moved_wrap; [apply Hm|destruct (_ =? 1); lia|lia]) end.
    set (r' := wrap_i64 _) in *. pose proof (moved_trans _ _ _ _ _ Hm Hm2) as Hm3. destruct (Z.eqb_spec r' 0) as [E0|_]; [destruct Hm3; lia|].
    eexists. split; [reflexivity|]. eapply moved_le; [exact Hm3|lia].
Qed.
Lemma far_look rel s i k f : i + w <= L ->
  (forall b rel, lenN b = w -> in_i64 rel -> (100 < Z.abs rel)%Z -> exists r, f (value b) rel = Ok (inl r) /\ moved rel (Z.of_N w) r) ->
  moved rel k s -> (k + 100 < Z.abs rel)%Z -> exists s', look_step w f rs s i = Ok (inl s') /\ moved rel (k + Z.of_N w) s'.
Proof using All.
  intros Hi Hf Hm Hr. unfold look_step. destruct (get_word lk bv rs B 0 Hlk Hwf G HB HT i Hi) as (b & Eb & _ & Hlb). rewrite Eb. cbn [bind].
  assert (Hv : value b <? 2 ^ w = true) by (apply N.ltb_lt; rewrite <- Hlb; apply value_lt). rewrite Hv. cbn [assert bind].
  destruct (Hf b s Hlb ltac:(apply Hm) ltac:(destruct Hm; lia)) as (r & -> & Hm2). cbn [bind]. eexists. split; [reflexivity|]. eapply moved_trans; eauto.
Qed.
Lemma far_fwd_words a k rel : a + k * w <= L -> in_i64 rel -> (Z.of_N (k * w) + 100 < Z.abs rel)%Z ->
  far_by rel (k * w) (forM_ret (steps a (a + k * w) w) rel (look_step w (lk_fwd lkr) rs)).
Proof using All.
  intros HkL Hi Hr. pose proof (lko_pos _ Hlk) as Hw. unfold steps. replace (div_ceil (a + k * w - a) w) with k.
  2:{ unfold div_ceil. apply N.div_unique with (r := w - 1); lia. }
  rewrite forM_ret_map.
  destruct (forM_ret_range_inv (fun q s => moved rel (Z.of_N (q * w)) s) (fun _ : N => False) 0 k rel (fun s x => look_step w (lk_fwd lkr) rs s (a + x * w))) as [(s & Es & Hs)|(r & _ & [])]; [lia| | |now exists s].
  - now apply moved_0.
  - intros q s _ Hq Hm. left. assert (q * w + w <= k * w) by nia.
    destruct (far_look rel s (a + q * w) (Z.of_N (q * w)) (lk_fwd lkr)) as (s' & Es & Hs); [lia|rewrite <- Hsz; apply Hfar|exact Hm|lia|].
    exists s'. split; [exact Es|]. eapply moved_le; [exact Hs|lia].
Qed.
Lemma far_bwd_words a k rel : a + k * w <= L -> in_i64 rel -> (Z.of_N (k * w) + 100 < Z.abs rel)%Z ->
  far_by rel (k * w) (forM_ret (rev (steps a (a + k * w) w)) rel (look_step w (lk_bwd lkr) rs)).
Proof using All.
  intros HkL Hi Hr. pose proof (lko_pos _ Hlk) as Hw. unfold steps. replace (div_ceil (a + k * w - a) w) with k.
  2:{ unfold div_ceil. apply N.div_unique with (r := w - 1); lia. }
  rewrite <- map_rev, forM_ret_map.
  destruct (forM_ret_rev_range_inv (fun q s => moved rel (Z.of_N ((k - q) * w)) s) (fun _ : N => False) 0 k rel (fun s x => look_step w (lk_bwd lkr) rs s (a + x * w))) as [(s & Es & Hs)|(r & _ & [])]; [lia| | |].
  - rewrite N.sub_diag. now apply moved_0.
  - intros q s _ Hq Hm. left. assert (q * w + w <= k * w) by nia. replace ((k - q) * w) with ((k - (q + 1)) * w + w) by nia. assert ((k - (q + 1)) * w <= k * w) by nia.
    destruct (far_look rel s (a + q * w) (Z.of_N ((k - (q + 1)) * w)) (lk_bwd lkr)) as (s' & Es & Hs); [lia|rewrite <- Hsz; apply Hfar|exact Hm|lia|].
    exists s'. split; [exact Es|]. eapply moved_le; [exact Hs|lia].
  - rewrite N.sub_0_r in Hs. now exists s.
Qed.
Lemma far_bind rel k k' r f : far_by rel k r -> (forall s, moved rel (Z.of_N k) s -> far_by s k' (f s)) ->
  far_by rel (k + k') (let* r := r in match r with inr i => Ok (inr i) | inl s => f s end).
Proof.
  intros (s & -> & Hs) H. cbn [bind]. destruct (H s Hs) as (s' & E & Hs'). exists s'. split; [exact E|]. eapply moved_le; [eapply moved_trans; eauto|lia].
Qed.
Lemma far_fwd_block m start block rel : start + 1 <= N.min ((block + 1) * B) L -> in_i64 rel -> (Z.of_N L + 100 < Z.abs rel)%Z ->
  far_by rel L (bp_fwd_search_block_rel lkr B (mkbp rs m) start block rel).
Proof using All.
  intros Hs Hi Hr. unfold bp_fwd_search_block_rel. cbn [bp_vec]. rewrite Hsz, (good_len _ _ G), <- (lenN_bits bv). set (bd := N.min ((block + 1) * B) L) in *. pose proof (lko_pos _ Hlk) as Hw.
  assert (HbdL : bd <= L) by (unfold bd; lia). set (c := div_ceil (start + 1) w). assert (Hc : start + 1 <= c * w).
  { unfold c, div_ceil. pose proof (N.div_mod' (start + 1 + w - 1) w). pose proof (N.mod_lt (start + 1 + w - 1) w). nia. }
  set (lb := N.min (c * w) bd). assert (Hlb : start + 1 <= lb /\ lb <= bd) by (unfold lb; lia).
  assert (Hub : exists k, N.max lb (bd / w * w) = lb + k * w /\ lb + k * w <= bd).
  { pose proof (N.mul_div_le bd w) as Hd. destruct (N.leb_spec bd (c * w)) as [Hle|Hle].
    - exists 0. unfold lb. replace (N.min (c * w) bd) with bd by lia. lia.
    - exists (bd / w - c). unfold lb. replace (N.min (c * w) bd) with (c * w) by lia. assert (c <= bd / w) by (apply N.div_le_lower_bound; lia). nia. }
  destruct Hub as (k & -> & Hk).
  assert (H : far_by rel ((lb - (start + 1)) + (k * w + (bd - (lb + k * w))))
    (let* r := forM_ret (range (start + 1) lb) rel (scan_fwd_rel rs) in
     match r with inr i => Ok (inr i) | inl rel =>
       let* r := forM_ret (steps lb (lb + k * w) w) rel (look_step w (lk_fwd lkr) rs) in
       match r with inr i => Ok (inr i) | inl rel => forM_ret (range (lb + k * w) bd) rel (scan_fwd_rel rs) end end)).
  { apply far_bind; [apply far_fwd_bits; auto; lia|]. intros s Hms. apply far_bind; [apply far_fwd_words; [lia|apply Hms|destruct Hms; lia]|].
    intros s' Hms'. pose proof (moved_trans _ _ _ _ _ Hms Hms') as Hm2. apply far_fwd_bits; [lia|lia|apply Hms'|destruct Hm2; lia]. }
  destruct H as (r & E & Hm). exists r. split; [exact E|]. eapply moved_le; [exact Hm|lia].
Qed.
Hypothesis Hal : aligned lk B.
Lemma far_bwd_block m start block rel : block * B < start -> start <= (block + 1) * B -> start <= L -> in_i64 rel -> (Z.of_N L + 100 < Z.abs rel)%Z ->
  far_by rel L (bp_bwd_search_block_rel lkr B (mkbp rs m) start block rel).
Proof using All.
  intros Hs1 Hs2 HsL Hi Hr. unfold bp_bwd_search_block_rel. cbn [bp_vec]. rewrite Hsz, (good_len _ _ G), <- (lenN_bits bv). replace (N.min (block * B) L) with (block * B) by lia.
  unfold usub. destruct (N.leb_spec 1 start) as [_|]; [|lia]. pose proof (lko_pos _ Hlk) as Hw. pose proof (N.mul_div_le (start - 1) w) as Hd. set (c := (start - 1) / w) in *.
  set (lb := N.max (c * w) (block * B)). assert (Hlb : block * B <= lb /\ lb < start) by (unfold lb; lia).
  assert (Hk : exists k, lb = block * B + k * w).
  { destruct (N.leb_spec (c * w) (block * B)) as [Hle|Hle]; [exists 0; unfold lb; lia|]. destruct Hal as [Ha|Ha].
    - apply N.mod_divide in Ha; [|lia]. destruct Ha as (z & Hz). exists (c - block * z). unfold lb. rewrite Hz in Hle |- *. assert (block * z < c) by (apply (align_lt _ _ w); exact Hle). rewrite N.max_l by lia. rewrite N.mul_sub_distr_r. rewrite N.mul_assoc in Hle |- *. lia.
    - exfalso. apply N.mod_divide in Ha; [|lia]. destruct Ha as (z & Hz). assert (Hc : (block + 1) * B <= c * w) by (rewrite Hz in Hle |- *; apply align_le; exact Hle). clear - Hc Hd Hs1 Hs2 Hw. lia. }
  destruct Hk as (k & Ek). rewrite Ek in *.
  assert (H : far_by rel ((start - (block * B + k * w)) + k * w)
    (let* r := forM_ret (rev (range (block * B + k * w) start)) rel (scan_bwd_rel rs) in
     match r with inr i => Ok (inr i) | inl rel => forM_ret (rev (steps (block * B) (block * B + k * w) w)) rel (look_step w (lk_bwd lkr) rs) end)).
  { apply far_bind; [apply far_bwd_bits; auto; lia|]. intros s Hms. apply far_bwd_words; [lia|apply Hms|destruct Hms; lia]. }
  destruct H as (r & E & Hm). exists r. split; [exact E|]. eapply moved_le; [exact Hm|lia].
Qed.
End FarBlock.

(** ** The min-max tree far from zero *)
Lemma sibling_even dp q : 1 <= dp -> q < 2 ^ dp -> q mod 2 = 0 -> q + 1 < 2 ^ dp.
Proof.
  intros Hd Hq Hm. rewrite (pow2_pred dp Hd) in *. destruct (mod2_cases q) as [[E _]|[_ E]]; lia.
Qed.
Lemma vv_pos dp q : 1 <= dp -> 1 <= vv dp q.
Proof. intros H. unfold vv. pose proof (pow2_pred dp H). pose proof (pow2_pos (dp - 1)). lia. Qed.
Lemma half_lt dp q : 1 <= dp -> q < 2 ^ dp -> q / 2 < 2 ^ (dp - 1).
Proof. intros H Hq. rewrite (pow2_pred dp H) in Hq. apply N.div_lt_upper_bound; lia. Qed.
Section FarTree.
Variables (l : list bool) (B : N) (nodes : list enode).
Hypothesis HB : 0 < B.
Hypothesis HL : 0 < lenN l.
Hypothesis Hok : mmt_ok l B nodes.
Hypothesis Hbig : lenN l < 2 ^ 57.
Local Notation L := (lenN l).
Local Notation nn := (nleaves (lenN l) B).
Local Notation h := (height (nleaves (lenN l) B)).
Lemma node_small dp q : dp <= h -> q < 2 ^ dp -> vv dp q < lenN nodes ->
  let nd := nthN node0 nodes (vv dp q) in (Z.abs (ntotal nd) <= Z.of_N L /\ Z.abs (nmin nd) <= Z.of_N L /\ Z.abs (nmax nd) <= Z.of_N L)%Z.
Proof using All.
  intros Hd Hq Hv nd. destruct (proj2 Hok dp q Hd Hq Hv) as (Ht & _ & (j1 & _ & _ & H1) & (j2 & _ & _ & H2)). fold nd in Ht, H1, H2.
  rewrite Ht, <- H1, <- H2. split; [|split]; apply ex_len.
Qed.
Lemma first_leaf_rel : mmt_first_leaf_rel nodes = Ok (2 ^ h - 1).
Proof using All. apply first_leaf_ref. now apply first_leaf_ok. Qed.
Lemma far_fwd_up (k : nat) : forall dp q fuel rel, dp = N.of_nat (S k) -> dp <= h -> (S k < fuel)%nat -> q < 2 ^ dp -> vv dp q < lenN nodes ->
  in_i64 rel -> (Z.of_N dp * Z.of_N L < Z.abs rel)%Z -> mmt_fwd_up_rel fuel nodes (vv dp q) rel = Ok None.
Proof using All.
  induction k as [|k IH]; intros dp q fuel rel Hdp Hdh Hf Hq Hv Hi Hr; (destruct fuel as [|fuel]; [lia|]); cbn [mmt_fwd_up_rel]; unfold mmt_is_left_child, mmt_parent;
    (destruct (N.ltb_spec (vv dp q) (lenN nodes)) as [_|]; [|lia]); rewrite vv_parent, vv_parent0, vv_odd by lia.
  - destruct (N.eqb_spec (q mod 2) 0) as [Eq|Eq]; cbn [negb].
    + unfold mmt_right_sibling. rewrite vv_odd by lia. rewrite Eq. cbn [N.eqb]. destruct (N.leb_spec (lenN nodes) (vv dp q + 1)) as [|Hs]; [reflexivity|].
      rewrite (idx_ok node0) by lia. cbn [bind]. replace (vv dp q + 1) with (vv dp (q + 1)) in * by (unfold vv; lia).
      destruct (node_small dp (q + 1) Hdh ltac:(apply sibling_even; auto; lia) Hs) as (N1 & N2 & N3). set (nd := nthN node0 nodes _) in *.
      assert (Z.of_N L < Z.abs rel)%Z by nia.
      destruct (Z.leb_spec (nmin nd) rel), (Z.leb_spec rel (nmax nd)); cbn [andb]; try lia; (destruct (N.eqb_spec dp 1); [reflexivity|lia]).
    + destruct (N.eqb_spec dp 1); [reflexivity|lia].
  - assert (Hp : vv (dp - 1) (q / 2) < lenN nodes) by (rewrite <- vv_parent by lia; pose proof (vv_pos dp q ltac:(lia)); assert ((vv dp q - 1) / 2 <= vv dp q - 1) by (apply N.div_le_upper_bound; lia); lia).
    pose proof (half_lt dp q ltac:(lia) Hq) as Hq2.
    destruct (N.eqb_spec (q mod 2) 0) as [Eq|Eq]; cbn [negb].
    + unfold mmt_right_sibling. rewrite vv_odd by lia. rewrite Eq. cbn [N.eqb]. destruct (N.leb_spec (lenN nodes) (vv dp q + 1)) as [|Hs]; [reflexivity|].
      rewrite (idx_ok node0) by lia. cbn [bind]. replace (vv dp q + 1) with (vv dp (q + 1)) in * by (unfold vv; lia).
      destruct (node_small dp (q + 1) Hdh ltac:(apply sibling_even; auto; lia) Hs) as (N1 & N2 & N3). set (nd := nthN node0 nodes _) in *.
      assert (Hfar : (Z.of_N L < Z.abs rel)%Z) by (clear - Hr Hdp; nia).
      assert (Hm : moved rel (Z.of_N L) (wrap_i64 (rel - ntotal nd))) by (apply moved_wrap; [exact Hi|lia|lia]).
      destruct (Z.leb_spec (nmin nd) rel), (Z.leb_spec rel (nmax nd)); cbn [andb]; try (clear - N2 N3 Hfar H H0; lia); (destruct (N.eqb_spec dp 1); [clear - Hdp e; lia|]); (apply IH; [clear - Hdp; lia|clear - Hdh; lia|clear - Hf; lia|exact Hq2|exact Hp|apply Hm|destruct Hm as [_ Hm]; clear - Hm Hr Hdp; nia]).
    + destruct (N.eqb_spec dp 1); [lia|]. apply IH; auto; try lia; nia.
Qed.
Lemma test_far nd rel : in_i64 rel -> (Z.abs (ntotal nd) <= Z.of_N L)%Z -> (Z.abs (nmin nd) <= Z.of_N L)%Z -> (Z.abs (nmax nd) <= Z.of_N L)%Z ->
  (2 * Z.of_N L < Z.abs rel)%Z -> mmt_bwd_test_rel nd rel = false.
Proof using All.
  intros Hi N1 N2 N3 Hr. unfold mmt_bwd_test_rel.
  assert (Hm : moved rel (Z.of_N L) (wrap_i64 (rel + ntotal nd))) by (apply moved_wrap; [exact Hi|lia|lia]). set (s := wrap_i64 _) in *. destruct Hm as [_ Hm].
  destruct (Z.eqb_spec s 0); [lia|]. destruct (Z.leb_spec (nmin nd) s), (Z.leb_spec s (nmax nd)); cbn [andb orb]; try lia; reflexivity.
Qed.
Lemma far_bwd_up (k : nat) : forall dp q fuel rel, dp = N.of_nat (S k) -> dp <= h -> (S k < fuel)%nat -> q < 2 ^ dp -> vv dp q < lenN nodes ->
  in_i64 rel -> (Z.of_N (dp + 1) * Z.of_N L < Z.abs rel)%Z -> mmt_bwd_up_rel fuel nodes (vv dp q) rel = Ok None.
Proof using All.
  induction k as [|k IH]; intros dp q fuel rel Hdp Hdh Hf Hq Hv Hi Hr; (destruct fuel as [|fuel]; [lia|]); cbn [mmt_bwd_up_rel]; unfold mmt_is_left_child, mmt_parent;
    (destruct (N.ltb_spec (vv dp q) (lenN nodes)) as [_|]; [|lia]); rewrite vv_parent, vv_parent0, vv_odd by lia.
  - destruct (N.eqb_spec (q mod 2) 0) as [Eq|Eq]; [destruct (N.eqb_spec dp 1); [reflexivity|lia]|].
    unfold mmt_left_sibling. assert (E1 : (vv dp q mod 2 =? 0) = true).
    { pose proof (vv_odd dp q ltac:(lia)) as Ho. destruct (N.eqb_spec (q mod 2) 0); [lia|]. apply N.eqb_neq in Ho. pose proof (N.mod_lt (vv dp q) 2). apply N.eqb_eq. lia. }
    rewrite E1. destruct (N.eqb_spec (vv dp q - 1) 0); [reflexivity|]. assert (Hq1 : 1 <= q) by (destruct (N.eq_dec q 0) as [->|]; [now contradict Eq|lia]).
    replace (vv dp q - 1) with (vv dp (q - 1)) in * by (unfold vv in *; lia). rewrite (idx_ok node0) by (unfold vv in *; lia). cbn [bind].
    destruct (node_small dp (q - 1) Hdh ltac:(lia) ltac:(unfold vv in *; lia)) as (N1 & N2 & N3). rewrite test_far by (auto; nia).
    destruct (N.eqb_spec dp 1); [reflexivity|lia].
  - assert (Hp : vv (dp - 1) (q / 2) < lenN nodes) by (rewrite <- vv_parent by lia; pose proof (vv_pos dp q ltac:(lia)); assert ((vv dp q - 1) / 2 <= vv dp q - 1) by (apply N.div_le_upper_bound; lia); lia).
    pose proof (half_lt dp q ltac:(lia) Hq) as Hq2.
    destruct (N.eqb_spec (q mod 2) 0) as [Eq|Eq]; [destruct (N.eqb_spec dp 1); [lia|]; apply IH; auto; try lia; nia|].
    unfold mmt_left_sibling. assert (E1 : (vv dp q mod 2 =? 0) = true).
    { pose proof (vv_odd dp q ltac:(lia)) as Ho. destruct (N.eqb_spec (q mod 2) 0); [lia|]. apply N.eqb_neq in Ho. pose proof (N.mod_lt (vv dp q) 2). apply N.eqb_eq. lia. }
    rewrite E1. destruct (N.eqb_spec (vv dp q - 1) 0); [reflexivity|]. assert (Hq1 : 1 <= q) by (destruct (N.eq_dec q 0) as [->|]; [now contradict Eq|lia]).
    replace (vv dp q - 1) with (vv dp (q - 1)) in * by (unfold vv in *; lia). rewrite (idx_ok node0) by (unfold vv in *; lia). cbn [bind].
    destruct (node_small dp (q - 1) Hdh ltac:(lia) ltac:(unfold vv in *; lia)) as (N1 & N2 & N3). set (nd := nthN node0 nodes _) in *. rewrite test_far by (auto; nia).
    assert (Hm : moved rel (Z.of_N L) (wrap_i64 (rel + ntotal nd))) by (apply moved_wrap; [exact Hi|lia|lia]).
    destruct (N.eqb_spec dp 1); [lia|]. apply IH; auto; try (clear - Hdp Hdh Hf; lia); [apply Hm|destruct Hm as [_ Hm]; clear - Hm Hr Hdp; nia].
Qed.
Lemma height_small : h <= 57.
Proof using All.
  unfold height. assert (nn <= L) by (unfold nleaves, div_ceil; apply N.div_le_upper_bound; nia).
  assert (N.log2_up nn <= 57) by (transitivity (N.log2_up (2 ^ 57)); [apply N.log2_up_le_mono; lia|reflexivity]). lia.
Qed.
Lemma ex_fits p : (Z.abs (0 - excess_before l p) <= 9223372036854775807)%Z.
Proof using All. pose proof (ex_len l 0 p) as H. rewrite ex_0 in H. lia. Qed.
Lemma far_mmt_fwd b rel : b < nn -> in_i64 rel -> (57 * Z.of_N L < Z.abs rel)%Z -> mmt_fwd_search_rel nodes b rel = Ok None.
Proof using All.
  intros Hb Hi Hr. unfold mmt_fwd_search_rel. rewrite first_leaf_rel. cbn [bind]. destruct (_ <=? _) eqn:El; [reflexivity|]. apply N.leb_gt in El.
  pose proof (height_pos nn) as Hh. pose proof height_small as Hs. replace (b + (2 ^ h - 1)) with (vv h b) in * by (unfold vv; lia).
  pose proof (vv_pos h b Hh). destruct (N.eqb_spec (vv h b) 0); [lia|]. cbn [negb assert bind].
  assert (Hb2 : b < 2 ^ h) by (pose proof (leaves_le nn (leaves_pos L B HB HL)); lia).
  pose proof (fuel_ok l B nodes 0 HB HL Hok ex_fits) as Hfu.
  rewrite (far_fwd_up (N.to_nat h - 1) h b) by (auto; try lia; nia). reflexivity.
Qed.
Lemma far_mmt_bwd b rel : b < nn -> in_i64 rel -> (58 * Z.of_N L < Z.abs rel)%Z -> mmt_bwd_search_rel nodes b rel = Ok None.
Proof using All.
  intros Hb Hi Hr. unfold mmt_bwd_search_rel. rewrite first_leaf_rel. cbn [bind]. destruct (_ <=? _) eqn:El; [reflexivity|]. apply N.leb_gt in El.
  pose proof (height_pos nn) as Hh. pose proof height_small as Hs. replace (b + (2 ^ h - 1)) with (vv h b) in * by (unfold vv; lia).
  pose proof (vv_pos h b Hh). destruct (N.eqb_spec (vv h b) 0); [lia|]. cbn [negb assert bind].
  assert (Hb2 : b < 2 ^ h) by (pose proof (leaves_le nn (leaves_pos L B HB HL)); lia).
  pose proof (fuel_ok l B nodes 0 HB HL Hok ex_fits) as Hfu.
  rewrite (far_bwd_up (N.to_nat h - 1) h b) by (auto; try lia; nia). reflexivity.
Qed.
End FarTree.

(** ** C105: the searches in a release build. *)
Lemma rel_a_lookup lk lkr : rel_lookup lk lkr -> a_lookup lk.
Proof. intros [[-> _]|[-> _]]; [left|right]; reflexivity. Qed.
Lemma empty_mmt B t : built_from B [] t -> bp_mmt t = [] /\ rlen (bp_vec t) = 0.
Proof.
  intros Hb. destruct (built_good _ _ _ Hb) as (bv' & G & _ & Hlen'). split; [|rewrite (good_len _ _ (bg_rs _ _ _ G)); exact Hlen'].
  destruct Hb as (bv & Hwf & Hl & HB & Et). assert (Hlen : blen bv = 0) by (rewrite <- lenN_bits, Hl; reflexivity).
  unfold bp_from_bit_vector, mmt_excess_tree in Et. rewrite Hlen in Et. cbn [N.eqb bind] in Et. destruct (rs_from_bit_vec bv); cbn [bind] in Et; try discriminate. now injection Et as <-.
Qed.
Theorem C105_fwd lk lkr B l t i d : rel_lookup lk lkr -> built_from B l t -> lenN l < 2 ^ 57 -> in_i64 d ->
  exists o, bp_fwd_search_rel lkr B t i d = Ok o /\ is_fwd l i d o.
Proof.
  intros Hrl Hb Hbig Hi. destruct (N.eq_dec (lenN l) 0) as [E0|E0].
  - assert (l = []) by (destruct l; [reflexivity|rewrite lenN_cons in E0; lia]). subst l. destruct (empty_mmt B t Hb) as [Em Er].
    exists None. split; [|intros k _ Hk; lia]. unfold bp_fwd_search_rel. destruct (_ <=? i); [reflexivity|]. unfold bp_fwd_search_block_rel. rewrite Er, !N.min_0_r, (range_nil (i + 1) 0) by lia. cbn [forM_ret bind].
    assert (Hw : 0 < lk_size lkr) by (destruct Hrl as [[_ ->]|[_ ->]]; reflexivity).
    rewrite N.div_0_l, N.mul_0_l by lia. change (N.max 0 0) with 0. unfold steps, div_ceil. change (0 - 0) with 0. rewrite N.div_small by lia. change (range 0 0) with (@nil N). cbn [map forM_ret bind].
    assert (En : forall b, mmt_fwd_search_rel [] b d = Ok None).
    { intros b. unfold mmt_fwd_search_rel. change (mmt_first_leaf_rel []) with (Ok 0). cbn [bind]. change (lenN (@nil enode)) with 0. destruct (N.leb_spec 0 (b + 0)); [reflexivity|lia]. }
    rewrite Em, En. reflexivity.
  - destruct (Z.leb_spec (Z.abs d + Z.of_N (lenN l)) 9223372036854775807) as [Hn|Hn].
    + destruct (C41_partial lk B l t i d (rel_a_lookup _ _ Hrl) Hb) as (o & E & Ho); [intros ->; now apply E0|exact Hn|].
      exists o. split; [|exact Ho]. exact (fwd_ref lk lkr B (rel_lookup_ref _ _ Hrl) t i d o E).
    + exists None. split; [|intros k _ _ Ek; pose proof (ex_len l (k + 1) (i + 1)); lia].
      destruct (built_good _ _ _ Hb) as (bv & [Hwf HB G Hm] & Hl & Hlen). specialize (Hm ltac:(lia)). rewrite Hl in Hm.
      pose proof (a_lookup_ok _ (rel_a_lookup _ _ Hrl)) as Hlk. pose proof (lr_size _ _ (rel_lookup_ref _ _ Hrl)) as Hsz. pose proof (rel_lookup_far _ _ Hrl) as Hfar.
      destruct t as [rs m]. cbn [bp_vec bp_mmt] in *. unfold bp_fwd_search_rel. cbn [bp_vec bp_mmt]. rewrite (good_len _ _ G), Hlen. unfold usub. destruct (N.leb_spec 1 (lenN l)) as [_|]; [|lia].
      destruct (N.leb_spec (lenN l - 1) i) as [|Hil]; [reflexivity|].
      set (block := (i + 1) / B). pose proof (N.div_mod' (i + 1) B) as Hdm. pose proof (N.mod_lt (i + 1) B ltac:(lia)) as Hml. fold block in Hdm.
      assert (Hblk : block < nleaves (lenN l) B) by (apply leaf_iff; auto; lia).
      assert (HT : forall p, (Z.abs (0 - excess_before (bits bv) p) <= 9223372036854775807)%Z) by (rewrite Hl; intros p; pose proof (ex_len l 0 p) as H; rewrite ex_0 in H; lia).
      destruct (far_fwd_block lk lkr bv rs B Hlk Hsz Hfar Hwf G HB HT ltac:(now rewrite Hl) m i block d) as (r & Er & Hr); rewrite ?Hl; [nia|exact Hi|lia|].
      rewrite Er. cbn [bind]. rewrite Hl in Hr. rewrite (far_mmt_fwd l B m HB ltac:(lia) Hm Hbig block r Hblk ltac:(apply Hr) ltac:(destruct Hr; lia)). reflexivity.
Qed.
Theorem C105_bwd lk lkr B l t i d : rel_lookup lk lkr -> built_from B l t -> aligned lk B -> lenN l < 2 ^ 57 -> in_i64 d -> i < lenN l ->
  exists o, bp_bwd_search_rel lkr B t i d = Ok o /\ is_bwd l i d o.
Proof.
  intros Hrl Hb Hal Hbig Hi Hil. destruct (Z.leb_spec (Z.abs d + Z.of_N (lenN l)) 9223372036854775807) as [Hn|Hn].
  - destruct (C42_partial lk B l t i d (rel_a_lookup _ _ Hrl) Hb Hal Hil Hn) as (o & E & Ho).
    exists o. split; [|exact Ho]. exact (bwd_ref lk lkr B (rel_lookup_ref _ _ Hrl) t i d o E).
  - exists None. split; [|intros k _ Ek; pose proof (ex_len l k i); lia].
    destruct (built_good _ _ _ Hb) as (bv & [Hwf HB G Hm] & Hl & Hlen). specialize (Hm ltac:(lia)). rewrite Hl in Hm.
    pose proof (a_lookup_ok _ (rel_a_lookup _ _ Hrl)) as Hlk. pose proof (lr_size _ _ (rel_lookup_ref _ _ Hrl)) as Hsz. pose proof (rel_lookup_far _ _ Hrl) as Hfar.
    destruct t as [rs m]. cbn [bp_vec bp_mmt] in *. unfold bp_bwd_search_rel. cbn [bp_vec bp_mmt]. rewrite (good_len _ _ G), Hlen.
    destruct (N.leb_spec (lenN l) i) as [|_]; [lia|]. destruct (N.eqb_spec i 0) as [|Hi0]; [reflexivity|].
    set (block := (i - 1) / B). pose proof (N.div_mod' (i - 1) B) as Hdm. pose proof (N.mod_lt (i - 1) B ltac:(lia)) as Hml. fold block in Hdm.
    assert (Hblk : block < nleaves (lenN l) B) by (apply leaf_iff; auto; lia).
    assert (HT : forall p, (Z.abs (0 - excess_before (bits bv) p) <= 9223372036854775807)%Z) by (rewrite Hl; intros p; pose proof (ex_len l 0 p) as H; rewrite ex_0 in H; lia).
    destruct (far_bwd_block lk lkr bv rs B Hlk Hsz Hfar Hwf G HB HT ltac:(now rewrite Hl) Hal m i block d) as (r & Er & Hr); rewrite ?Hl; [lia|lia|lia|exact Hi|lia|].
    rewrite Er. cbn [bind]. rewrite Hl in Hr. rewrite (far_mmt_bwd l B m HB ltac:(lia) Hm Hbig block r Hblk ltac:(apply Hr) ltac:(destruct Hr; lia)). reflexivity.
Qed.
Theorem C105_out_of_range lkr B l t i d : built_from B l t -> lenN l <= i -> bp_bwd_search_rel lkr B t i d = Ok None.
Proof.
  intros Hb Hi. destruct (built_good _ _ _ Hb) as (bv & G & Hl & Hlen). unfold bp_bwd_search_rel. rewrite (good_len _ _ (bg_rs _ _ _ G)), Hlen. destruct (N.leb_spec (lenN l) i); [reflexivity|lia].
Qed.
(** An expression of seven parentheses in blocks of four, with excesses at both ends of [i64]; the
    debug build panics on the last three. *)
Example C105_ex : exists t, built_from 4 [true; true; false; true; false; false; false] t /\ aligned lookup8 4 /\ in_i64 (-9223372036854775808) /\
  bp_fwd_search_rel lookup8_rel 4 t 0 (-1) = Ok (Some 5) /\ bp_bwd_search_rel lookup8_rel 4 t 6 1 = Ok (Some 5) /\
  bp_fwd_search_rel lookup8_rel 4 t 0 (-9223372036854775808) = Ok None /\ bp_fwd_search lookup8 4 t 0 (-9223372036854775808) = Panic /\
  bp_bwd_search_rel lookup8_rel 4 t 6 9223372036854775807 = Ok None /\ bp_bwd_search lookup8 4 t 6 (-9223372036854775808) = Panic.
Proof.
  destruct (mk 4 [true; true; false; true; false; false; false]) as [t| |] eqn:E; [|vm_compute in E; discriminate E|vm_compute in E; discriminate E].
  exists t. split; [now apply mk_built|]. split; [right; reflexivity|]. split; [unfold in_i64; lia|]. vm_compute in E. injection E as <-. vm_compute. auto 10.
Qed.

(** ** C106: levels in a release build. *)
Lemma rel_fwd_none lk lkr B l t i d : rel_lookup lk lkr -> built_from B l t -> lenN l < 2 ^ 57 -> in_i64 d -> (Z.of_N (lenN l) < Z.abs d)%Z -> bp_fwd_search_rel lkr B t i d = Ok None.
Proof.
  intros H1 H2 H3 H4 Hd. destruct (C105_fwd lk lkr B l t i d H1 H2 H3 H4) as ([j|] & E & Ho); [|exact E]. destruct Ho as (_ & _ & Ho & _). pose proof (ex_len l (j + 1) (i + 1)). lia.
Qed.
Lemma rel_bwd_none lk lkr B l t i d : rel_lookup lk lkr -> built_from B l t -> aligned lk B -> lenN l < 2 ^ 57 -> in_i64 d -> (Z.of_N (lenN l) < Z.abs d)%Z -> bp_bwd_search_rel lkr B t i d = Ok None.
Proof.
  intros H1 H2 Hal H3 H4 Hd. destruct (N.ltb_spec i (lenN l)) as [Hi|Hi]; [|now apply (C105_out_of_range lkr B l)].
  destruct (C105_bwd lk lkr B l t i d H1 H2 Hal H3 H4 Hi) as ([j|] & E & Ho); [|exact E]. destruct Ho as (_ & Ho & _). pose proof (ex_len l j i). lia.
Qed.
Lemma open_ref lk lkr B t i : lookup_ref lk lkr -> ref (bp_open lk B t i) (bp_open_rel lkr B t i).
Proof. intros H. unfold bp_open, bp_open_rel. destruct (_ <=? i); [apply ref_refl|now apply bwd_ref]. Qed.
Lemma level_far t k : lenN (enc t) <= k -> level t k = [].
Proof.
  intros Hk. destruct (level t k) as [|p m] eqn:E; [reflexivity|]. assert (Hin : In (handle t p) (map (handle t) (level t k))) by (rewrite E; left; reflexivity).
  apply level_In in Hin. destruct Hin as (H1 & _ & H2). pose proof (ex_bound (enc t) (handle t p)). lia.
Qed.
Lemma depth_lt t p : subtree t p <> None -> lenN p < lenN (enc t).
Proof.
  intros Hp. assert (Hin : In p (level t (lenN p))) by (apply level_spec; auto). destruct (N.ltb_spec (lenN p) (lenN (enc t))) as [|Hge]; [auto|]. rewrite level_far in Hin by exact Hge. destruct Hin.
Qed.
(** All levels that fit an [i64] (for [level_ancestor] also 2^63). *)
Theorem C106_levels lk lkr B t bt : rel_lookup lk lkr -> built_from B (enc t) bt -> lenN (enc t) < 2 ^ 57 ->
  (forall k, k < 2 ^ 63 -> bp_level_leftmost_rel lkr B bt k = Ok (option_map (handle t) (getN (level t k) 0))) /\
  (aligned lk B ->
    (forall p l, subtree t p <> None -> l <= 2 ^ 63 ->
      bp_level_ancestor_rel lkr B bt (handle t p) l = Ok (if l <=? lenN p then Some (handle t (takeN (lenN p - l) p)) else None)) /\
    (forall k, k < 2 ^ 63 -> 1 <= k \/ 2 <= tsize t ->
      bp_level_rightmost_rel lkr B bt k = Ok (option_map (handle t) (getN (level t k) (lenN (level t k) - 1))))).
Proof.
  intros Hrl Hb Hbig. pose proof (rel_a_lookup _ _ Hrl) as Hlk. pose proof (rel_lookup_ref _ _ Hrl) as Hlr.
  assert (Hrep : represents B t bt) by (split; [exact Hb|lia]). destruct (C46_partial lk B t bt Hlk Hrep) as (_ & Hlm & Hrest).
  change (2 ^ 63) with 9223372036854775808. pose proof (len_enc2 t) as Hl2.
  assert (Has : forall k, k < 9223372036854775808 -> as_i64 k = Z.of_N k) by (intros k Hk; unfold as_i64; change (2 ^ 63) with 9223372036854775808; destruct (N.ltb_spec k 9223372036854775808); [reflexivity|lia]).
  split; [|intros Hal; destruct (Hrest Hal) as (Hla & _ & Hrm); split].
  - intros k Hk. destruct (Z.leb_spec (Z.of_N k + Z.of_N (lenN (enc t))) 9223372036854775807) as [Hn|Hn].
    + specialize (Hlm k Hn). revert Hlm. unfold bp_level_leftmost, bp_level_leftmost_rel. destruct (k =? 0); [auto|]. apply (fwd_ref lk lkr B Hlr).
    + rewrite level_far by lia. unfold bp_level_leftmost_rel. destruct (N.eqb_spec k 0); [lia|]. rewrite Has by exact Hk.
      apply (rel_fwd_none lk lkr B (enc t)); auto; [unfold in_i64; lia|lia].
  - intros p l Hp Hk. pose proof (depth_lt t p Hp) as Hdl. destruct (Z.leb_spec (Z.of_N l + Z.of_N (lenN (enc t))) 9223372036854775807) as [Hn|Hn].
    + specialize (Hla p l Hp Hn). revert Hla. unfold bp_level_ancestor, bp_level_ancestor_rel. destruct (l =? 0); [auto|].
      destruct (i64_cases (- as_i64 l)) as [[-> ->]| ->]; cbn [bind]; [|discriminate]. apply (bwd_ref lk lkr B Hlr).
    + unfold bp_level_ancestor_rel. destruct (N.eqb_spec l 0); [lia|]. destruct (N.leb_spec l (lenN p)); [lia|].
      apply (rel_bwd_none lk lkr B (enc t)); auto; [apply wrap_in|].
      destruct (N.eq_dec l 9223372036854775808) as [->|]; [change (wrap_i64 (- as_i64 9223372036854775808)) with (-9223372036854775808)%Z; lia|].
      rewrite Has by lia. rewrite wrap_small by lia. lia.
  - intros k Hk Hor. destruct (Z.leb_spec (Z.of_N k + Z.of_N (lenN (enc t))) 9223372036854775807) as [Hn|Hn].
    + specialize (Hrm k Hn Hor). revert Hrm. apply ref_bind; [apply ref_refl|]. intros s. apply sub_usub. apply ref_bind; [now apply bwd_ref|]. intros [c|]; [now apply open_ref|apply ref_refl].
    + rewrite level_far by lia. unfold bp_level_rightmost_rel. rep Hrep. rewrite (size_ok B bv bt t G Hbits). cbn [bind]. rewrite Has by exact Hk.
      rewrite (rel_bwd_none lk lkr B (enc t)); auto; [unfold in_i64; lia|lia].
Qed.
(** Levels from 2^63 on: the cast makes them negative. *)
Theorem C106_wrapped lk lkr B t bt k : rel_lookup lk lkr -> built_from B (enc t) bt -> lenN (enc t) < 2 ^ 57 -> 2 ^ 63 <= k -> k < 2 ^ 64 ->
  bp_level_leftmost_rel lkr B bt k = Ok (if k =? 2 ^ 64 - 1 then Some (lenN (enc t) - 1) else None) /\
  (aligned lk B -> bp_level_rightmost_rel lkr B bt k = Ok None /\
    forall i, i < lenN (enc t) -> 2 ^ 63 < k ->
      exists o, bp_level_ancestor_rel lkr B bt i k = Ok o /\ is_bwd (enc t) i (Z.of_N (2 ^ 64 - k)) o).
Proof.
  intros Hrl Hb Hbig. change (2 ^ 64 - 1) with 18446744073709551615. change (2 ^ 63) with 9223372036854775808. change (2 ^ 64) with 18446744073709551616. intros K1 K2.
  assert (Has : as_i64 k = (Z.of_N k - 18446744073709551616)%Z) by (unfold as_i64; change (2 ^ 63) with 9223372036854775808; destruct (N.ltb_spec k 9223372036854775808); [lia|reflexivity]).
  assert (Hrep : represents B t bt) by (split; [exact Hb|lia]). rep Hrep.
  pose proof (len_enc2 t) as Hl2. split; [|intros Hal; split].
  - unfold bp_level_leftmost_rel. destruct (N.eqb_spec k 0); [lia|]. rewrite Has.
    destruct (C105_fwd lk lkr B (enc t) bt 0 (Z.of_N k - 18446744073709551616) Hrl Hb Hbig ltac:(unfold in_i64; lia)) as (o & -> & Ho). f_equal. apply (fwd_det _ _ _ _ _ Ho).
    unfold fwd_result. change (0 + 1) with 1. rewrite enc_ex1. destruct (enc_balanced t) as [Hend Hin]. destruct (N.eqb_spec k 18446744073709551615) as [->|Hk].
    + replace (lenN (enc t) - 1 + 1) with (lenN (enc t)) by lia. split; [lia|]. split; [lia|]. split; [rewrite Hend; reflexivity|]. intros j J1 J2. specialize (Hin (j + 1) ltac:(lia) ltac:(lia)). lia.
    + intros j J1 J2. pose proof (enc_nonneg t (j + 1) ltac:(lia)). lia.
  - unfold bp_level_rightmost_rel. rewrite (size_ok B bv bt t G Hbits). cbn [bind]. rewrite Has. pose proof (enc_len_size t) as Hsz. unfold usub. destruct (N.leb_spec 1 (tsize t * 2)); [|lia].
    replace (tsize t * 2 - 1) with (lenN (enc t) - 1) by lia. destruct (enc_balanced t) as [Hend Hin].
    destruct (C105_bwd lk lkr B (enc t) bt (lenN (enc t) - 1) (Z.of_N k - 18446744073709551616) Hrl Hb Hal Hbig ltac:(unfold in_i64; lia) ltac:(lia)) as ([j|] & -> & Ho); cbn [bind]; [|reflexivity].
    destruct Ho as (J1 & J2 & _). rewrite enc_ex_last in J2. destruct (N.eq_dec j 0) as [->|Hj]; [|specialize (Hin j ltac:(lia) ltac:(lia)); lia].
    unfold bp_open_rel, bp_bwd_search_rel. destruct (_ <=? 0); reflexivity.
  - intros i Hi Hk. unfold bp_level_ancestor_rel. destruct (N.eqb_spec k 0); [lia|]. rewrite Has, wrap_small by lia.
    replace (- (Z.of_N k - 18446744073709551616))%Z with (Z.of_N (18446744073709551616 - k)) by lia. apply (C105_bwd lk lkr B); auto. unfold in_i64. lia.
Qed.
(** Expressions without an opening parenthesis, the empty one among them. *)
Theorem C106_no_node lk lkr B l bt k : rel_lookup lk lkr -> built_from B l bt -> lenN l < 2 ^ 57 -> k < 2 ^ 64 -> ~ In true l ->
  bp_level_rightmost_rel lkr B bt k = Ok None /\
  (l = [] -> bp_level_leftmost_rel lkr B bt k = Ok (if k =? 0 then Some 0 else None) /\
    (forall i, k <> 0 -> bp_level_ancestor_rel lkr B bt i k = Ok None) /\ forall i d, in_i64 d -> bp_fwd_search_rel lkr B bt i d = Ok None).
Proof.
  intros Hrl Hb Hbig Hk64 Hno. split.
  - destruct (built_good _ _ _ Hb) as (bv & G & Hl & Hlen). unfold bp_level_rightmost_rel, bp_size. rewrite (rs_rank1_bits bv) by apply G. rewrite Hl. cbn [bind].
    assert (Hc : forall p, rank_spec true l p = 0).
    { intros p. unfold rank_spec. assert (Hf : ~ In true (takeN p l)) by (intros H; apply Hno; rewrite <- (firstn_skipn (N.to_nat p) l); apply in_or_app; left; exact H). revert Hf. generalize (takeN p l) as m. clear.
      induction m as [|x m IH]; intros H; [reflexivity|]. destruct x; [exfalso; apply H; now left|]. cbn. rewrite IH; [reflexivity|]. intros H'. apply H. now right. }
    rewrite Hc. change (usub (0 * 2) 1) with 18446744073709551615. rewrite (C105_out_of_range lkr B l bt) by (auto; lia). reflexivity.
  - intros ->. assert (Hf : forall i d, in_i64 d -> bp_fwd_search_rel lkr B bt i d = Ok None).
    { intros i d Hd. destruct (C105_fwd lk lkr B [] bt i d Hrl Hb Hbig Hd) as ([j|] & E & Ho); [|exact E]. destruct Ho as (_ & H & _). cbn in H. lia. }
    split; [|split; [|exact Hf]].
    + unfold bp_level_leftmost_rel. destruct (k =? 0); [reflexivity|]. apply Hf. unfold as_i64, in_i64. change (2 ^ 63) with 9223372036854775808. change (2 ^ 64)%Z with 18446744073709551616%Z. change (2 ^ 64) with 18446744073709551616 in Hk64. destruct (N.ltb_spec k 9223372036854775808); lia.
    + intros i Hk. unfold bp_level_ancestor_rel. destruct (N.eqb_spec k 0); [contradiction|]. apply (C105_out_of_range lkr B []); auto. cbn. lia.
Qed.
(** The tree of C46, the debug panics of C46 and C49, and the levels that wrap. *)
Example C106_ex : exists bt et, represents 4 ex_tree bt /\ built_from 4 [] et /\
  bp_level_leftmost_rel lookup8_rel 4 bt 2 = Ok (Some 2) /\ bp_level_rightmost_rel lookup8_rel 4 bt 2 = Ok (Some 12) /\ bp_level_ancestor_rel lookup8_rel 4 bt 5 2 = Ok (Some 1) /\
  bp_level_ancestor_rel lookup8_rel 4 bt 5 (2 ^ 63) = Ok None /\ bp_level_ancestor lookup8 4 bt 5 (2 ^ 63) = Panic /\
  bp_level_leftmost_rel lookup8_rel 4 bt (2 ^ 64 - 1) = Ok (Some 15) /\ bp_level_ancestor_rel lookup8_rel 4 bt 9 (2 ^ 64 - 1) = Ok (Some 8) /\
  bp_level_rightmost_rel lookup8_rel 4 et 0 = Ok None /\ bp_level_rightmost lookup8 4 et 0 = Panic /\ bp_level_leftmost_rel lookup8_rel 4 et 0 = Ok (Some 0).
Proof.
  destruct (mk 4 (enc ex_tree)) as [bt| |] eqn:E; [|vm_compute in E; discriminate E|vm_compute in E; discriminate E].
  destruct (mk 4 []) as [et| |] eqn:E2; [|vm_compute in E2; discriminate E2|vm_compute in E2; discriminate E2].
  exists bt, et. split; [split; [now apply mk_built|vm_compute; discriminate]|]. split; [now apply mk_built|]. vm_compute in E, E2. injection E as <-. injection E2 as <-. vm_compute. auto 12.
Qed.
