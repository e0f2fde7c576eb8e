(** * Properties C134, C135: excess and emptiness, and node queries in a release build. *)
From Verif Require Import Base Spec BaseFacts WordFacts BitVecModel BitVecProofs RsVecModel RsVecProofs RsVecSelect RsEqProofs RsIterModel RsIterProofs GenIterModel
  BpModel BpExcess BpLookup BpMmt BpSearch BpBlock BpTreeSpec BpTreeFacts BpTreeProofs IterFacts PropsBp PropsBitSet BpReleaseModel PropsBpRelease PropsUnbalanced BpNodeReleaseModel.

Lemma wadd1 i : i < U64 -> wrapping_add i 1 = if i =? U64 - 1 then 0 else i + 1.
Proof.
  intros Hi. unfold wrapping_add. destruct (N.eqb_spec i (U64 - 1)) as [->|H]; [reflexivity|]. apply N.mod_small. unfold U64 in *. lia.
Qed.
Lemma wadd1_small i : i < 2 ^ 57 -> wrapping_add i 1 = i + 1.
Proof.
  change (2 ^ 57) with 144115188075855872. intros Hi. rewrite wadd1 by (unfold U64; lia). destruct (N.eqb_spec i (U64 - 1)); [unfold U64 in *; lia|reflexivity].
Qed.
Lemma excess_ranks l p : (Z.of_N (rank_spec true l p) - Z.of_N (rank_spec false l p))%Z = excess_before l p.
Proof. unfold rank_spec, excess_before. reflexivity. Qed.
Lemma excess_end l p : lenN l <= p -> excess_before l p = excess_before l (lenN l).
Proof. intros H. unfold excess_before. now rewrite !takeN_all by lia. Qed.

(** ** C134. The documentation of [excess] says: "If [index] is out of bounds, the total excess of the
    parentheses expression is returned", and that of [is_empty]: "Returns true, if the tree has no nodes". *)
Definition C134_statement : Prop := forall B l t i, built_from B l t -> i < U64 ->
  bp_excess t i = Ok (excess_before l (N.min (i + 1) (lenN l))) /\ (bp_is_empty t = true <-> bp_size t = Ok 0).
(** In a debug build: missing are the positions beyond the end, where it panics. *)
Theorem C134_partial B l t i : built_from B l t ->
  (i < lenN l -> bp_excess t i = Ok (Z.of_N (count true (takeN (i + 1) l)) - Z.of_N (count false (takeN (i + 1) l)))%Z) /\
  (lenN l <= i -> bp_excess t i = Panic) /\
  (bp_is_empty t = true <-> l = []) /\ (bp_is_empty t = true -> bp_size t = Ok 0).
Proof.
  intros Hb. pose proof (any_len B l t Hb) as Hlen. unfold bp_excess, bp_is_empty, bp_size. rewrite Hlen, (np_rank1 B l t Hb), (np_rank1 B l t Hb), (np_rank0 B l t Hb). repeat split.
  - intros Hi. destruct (N.ltb_spec i (lenN l)); [|lia]. reflexivity.
  - intros Hi. destruct (N.ltb_spec i (lenN l)); [lia|]. reflexivity.
  - intros H. apply N.eqb_eq in H. destruct l; [auto|rewrite lenN_cons in H; lia].
  - intros ->. reflexivity.
  - intros H. apply N.eqb_eq in H. destruct l; [reflexivity|rewrite lenN_cons in H; lia].
Qed.
(** In a release build the promise about [excess] holds but for the largest [usize], where [index + 1] wraps to 0. *)
Theorem C134_release B l t i : built_from B l t -> lenN l < 2 ^ 57 -> i < U64 ->
  bp_excess_rel t i = Ok (if i =? U64 - 1 then 0%Z else excess_before l (N.min (i + 1) (lenN l))).
Proof.
  intros Hb Hbig Hi. unfold bp_excess_rel. rewrite (np_rank1 B l t Hb), (np_rank0 B l t Hb). cbn [bind].
  assert (Hr : forall b p, rank_spec b l p <= lenN l).
  { intros b p. unfold rank_spec. pose proof (count_le b (takeN p l)) as H. rewrite lenN_takeN in H. lia. }
  assert (Ha : forall b p, as_i64 (rank_spec b l p) = Z.of_N (rank_spec b l p)).
  { intros b p. unfold as_i64. specialize (Hr b p). change (2 ^ 63) with 9223372036854775808. change (2 ^ 57) with 144115188075855872 in Hbig. destruct (N.ltb_spec (rank_spec b l p) 9223372036854775808); [auto|lia]. }
  rewrite !Ha, wrap_small by (pose proof (Hr true (wrapping_add i 1)); pose proof (Hr false (wrapping_add i 1)); change (2 ^ 57) with 144115188075855872 in Hbig; lia).
  rewrite excess_ranks, wadd1 by auto. f_equal. destruct (N.eqb_spec i (U64 - 1)); [apply ex_0|].
  destruct (N.leb_spec (i + 1) (lenN l)); [now rewrite N.min_l|]. rewrite N.min_r by lia. apply excess_end. lia.
Qed.
Lemma one_closing : exists t, built_from 8 [false] t.
Proof.
  destruct (mk 8 [false]) as [t| |] eqn:E; [|exfalso; vm_compute in E; discriminate|exfalso; vm_compute in E; discriminate].
  exists t. now apply mk_built in E.
Qed.
(** A single closing parenthesis: [excess] of the first position beyond it panics in a debug build, the
    largest [usize] gives 0 instead of -1 in a release build, and the tree without nodes is not "empty". *)
Theorem C134_refuted : ~ C134_statement /\ exists t, built_from 8 [false] t /\ bp_excess t 1 = Panic /\ excess_before [false] 1 = (-1)%Z /\
  bp_excess_rel t (U64 - 1) = Ok 0%Z /\ bp_excess_rel t (U64 - 2) = Ok (-1)%Z /\ bp_size t = Ok 0 /\ bp_is_empty t = false.
Proof.
  destruct one_closing as (t & Hb). destruct (C134_partial 8 [false] t 1 Hb) as (_ & H1 & H2 & _). specialize (H1 ltac:(cbn; lia)). split.
  - intros H. destruct (H 8 [false] t 1 Hb ltac:(unfold U64; lia)) as [E _]. rewrite H1 in E. discriminate.
  - exists t. split; [auto|]. split; [auto|]. split; [reflexivity|].
    rewrite !(C134_release 8 [false] t) by (auto; try (unfold U64; lia); cbn; lia). split; [reflexivity|]. split; [reflexivity|].
    split; [unfold bp_size; rewrite (any_len 8 [false] t Hb), (np_rank1 8 [false] t Hb); reflexivity|]. destruct (bp_is_empty t); [|auto]. discriminate (proj1 H2 eq_refl).
Qed.
Example C134_ex : (let* t := mk 4 ex_unbal in let* a := bp_excess t 0 in let* b := bp_excess t 2 in let* c := bp_excess t 8 in let* d := bp_excess_rel t 9 in Ok (a, b, c, d)) = Ok (-1, 1, 1, 1)%Z /\
  (let* t := mk 4 ex_unbal in bp_excess t 9) = Panic.
Proof. vm_compute. auto. Qed.

(** ** C135 *)
(** There is a closing parenthesis at [i] and the next unmatched one after it is at [j]: the parenthesis
    that closes the node around. *)
Definition next_closing (l : list bool) (i j : N) : Prop :=
  exists a cs b, l = a ++ false :: flat_map enc cs ++ false :: b /\ lenN a = i /\ j = i + 1 + lenN (flat_map enc cs).
Lemma next_closing_ex l i j : next_closing l i j <-> i < j /\ j < lenN l /\ nthN true l i = false /\ nthN true l j = false /\
  excess_before l j = excess_before l (i + 1) /\ (forall k, i < k -> k <= j -> (excess_before l (i + 1) <= excess_before l k)%Z).
Proof.
  split.
  - intros (a & cs & b & -> & <- & ->). change (flat_map enc cs) with (encs cs). rewrite !lenN_app, !lenN_cons, !lenN_app, !lenN_cons. split; [lia|]. split; [lia|].
    split; [rewrite <- (N.add_0_r (lenN a)); now rewrite nthN_app_ge|].
    split.
    { replace (lenN a + 1 + lenN (encs cs)) with (lenN a + (lenN (encs cs) + 1)) by lia. rewrite nthN_app_ge. change (false :: encs cs ++ false :: b) with ([false] ++ encs cs ++ false :: b).
      replace (lenN (encs cs) + 1) with (lenN [false] + (lenN (encs cs) + 0)) by (change (lenN [false]) with 1; lia). now rewrite !nthN_app_ge. }
    assert (He : forall k, k <= lenN (encs cs) -> excess_before (a ++ false :: encs cs ++ false :: b) (lenN a + 1 + k) = (excess_before a (lenN a) - 1 + excess_before (encs cs) k)%Z).
    { intros k Hk. replace (lenN a + 1 + k) with (lenN a + (k + 1)) by lia. rewrite ex_app_ge, ex_cons, ex_app_le by auto. cbn [paren]. lia. }
    pose proof (He 0 ltac:(lia)) as H1. rewrite N.add_0_r, ex_0 in H1. rewrite H1. split.
    + rewrite He by lia. rewrite encs_balanced. lia.
    + intros k K1 K2. replace k with (lenN a + 1 + (k - lenN a - 1)) by lia. rewrite He by lia. pose proof (encs_nonneg cs (k - lenN a - 1) ltac:(lia)). lia.
  - intros (A & L & Hi & Hj & E & M). assert (Ls : lenN (sliceN (i + 1) (j - i - 1) l) = j - i - 1) by (apply lenN_sliceN; lia).
    destruct (parse_forest (sliceN (i + 1) (j - i - 1) l)) as (cs & Es).
    + rewrite Ls, ex_slice by lia. replace (i + 1 + (j - i - 1)) with j by lia. lia.
    + rewrite Ls. intros k Hk. rewrite ex_slice by lia. specialize (M (i + 1 + k) ltac:(lia) ltac:(lia)). lia.
    + exists (takeN i l), cs, (dropN (j + 1) l). change (flat_map enc cs) with (encs cs). rewrite <- Es. split; [|rewrite lenN_takeN, Ls; lia].
      rewrite (cut3 l i 1) at 1 by lia. f_equal. replace (sliceN i 1 l) with [false]; [cbn [app]; f_equal|].
      * rewrite <- (takeN_dropN (j - i - 1) (dropN (i + 1) l)) at 1. f_equal. rewrite dropN_dropN. replace (i + 1 + (j - i - 1)) with j by lia. rewrite (dropN_nth true) by lia. now rewrite Hj.
      * unfold sliceN. rewrite (dropN_nth true) by lia. rewrite Hi. reflexivity.
Qed.
Lemma nth_def l i : i < lenN l -> nthN true l i = nthN false l i.
Proof. intros H. unfold nthN. apply nth_indep. unfold lenN in H. lia. Qed.
Lemma closing_in l i : nthN true l i = false -> i < lenN l.
Proof. intros H. destruct (N.ltb_spec i (lenN l)); [auto|]. rewrite nthN_overflow in H by auto. discriminate. Qed.
Lemma fwd_closing l i o : nthN true l i = false -> is_fwd l i (-1) o -> forall j, o = Some j <-> next_closing l i j.
Proof.
  intros Hi Ho j. rewrite next_closing_ex. split.
  - intros ->. cbn [is_fwd] in Ho. destruct Ho as (A & L & C & D).
    assert (M : forall k, i < k -> k <= j -> (excess_before l (i + 1) <= excess_before l k)%Z).
    { intros k K1 K2. pose proof (stay_fwd l (i + 1) k (excess_before l (i + 1) - 1) ltac:(lia) ltac:(lia)) as H. enough (excess_before l (i + 1) - 1 < excess_before l k)%Z by lia. apply H.
      intros k' K3 K4. replace k' with (k' - 1 + 1) by lia. specialize (D (k' - 1) ltac:(lia) ltac:(lia)). lia. }
    pose proof (M j ltac:(lia) ltac:(lia)) as Mj. rewrite ex_succ in C by lia. rewrite (nth_def l j) by lia. destruct (nthN false l j) eqn:Ej; cbn [paren] in C; [lia|]. repeat split; auto; lia.
  - intros (A & L & _ & Hj & E & M). apply (is_fwd_fun l i (-1)); [auto|]. cbn [is_fwd]. rewrite (ex_succ l j), <- (nth_def l j), Hj by lia. cbn [paren]. split; [auto|]. split; [auto|]. split; [lia|].
    intros k K1 K2. specialize (M (k + 1) ltac:(lia) ltac:(lia)). lia.
Qed.

Lemma ref_collect {S A} (f g : S -> res (S * option A)) : (forall s, ref (f s) (g s)) -> forall fuel s, ref (collect fuel f s) (collect fuel g s).
Proof.
  intros H. induction fuel as [|fuel IH]; intros s; [apply ref_refl|]. cbn [collect]. apply ref_bind; [apply H|]. intros [s' [x|]]; [|apply ref_refl]. apply ref_bind; [apply IH|]. intros; apply ref_refl.
Qed.
Lemma ref_map_next {S A C} (next : S -> res (S * option A)) (f g : A -> res C) : (forall x, ref (f x) (g x)) -> forall s, ref (map_next next f s) (map_next next g s).
Proof.
  intros H s. unfold map_next. apply ref_bind; [apply ref_refl|]. intros [s' [x|]]; [|apply ref_refl]. apply ref_bind; [apply H|]. intros; apply ref_refl.
Qed.
Lemma ref_skip {A C} (a : res A) (f : A -> res C) g : (forall x, a = Ok x -> ref (f x) g) -> ref (bind a f) g.
Proof. intros H. destruct a as [x| |]; cbn [bind]; [now apply H|intros r; discriminate|intros r; discriminate]. Qed.

Section Handles.
Variables (lk lkr : lookup) (B : N) (l : list bool) (bt : bptree).
Hypothesis Hrl : rel_lookup lk lkr.
Hypothesis Hb : built_from B l bt.
Hypothesis Hbig : lenN l < 2 ^ 57.
Local Notation Hlr := (rel_lookup_ref _ _ Hrl).
Lemma close_ref i : ref (bp_close lk B bt i) (bp_close_rel lkr B bt i).
Proof using Hrl. unfold bp_close, bp_close_rel. destruct (_ <=? i); [apply ref_refl|apply fwd_ref, Hlr]. Qed.
Lemma open_ref' i : ref (bp_open lk B bt i) (bp_open_rel lkr B bt i).
Proof using Hrl. unfold bp_open, bp_open_rel. destruct (_ <=? i); [apply ref_refl|apply bwd_ref, Hlr]. Qed.
Lemma assert_in i : bp_assert_node bt i = Ok tt -> nthN false l i = true.
Proof using Hb.
  unfold bp_assert_node. rewrite (any_open_get B l bt Hb). cbn [bind]. destruct (i <? lenN l); [|discriminate]. destruct (nthN false l i); [auto|discriminate].
Qed.
Lemma assert_small i : bp_assert_node bt i = Ok tt -> i < 2 ^ 57.
Proof using Hb Hbig. intros H. apply assert_in in H. apply any_in in H. lia. Qed.
Ltac node := apply ref_skip; intros [] Ha; pose proof (assert_small _ Ha) as Hsm; rewrite ?(wadd1_small _ Hsm).
Lemma close_lt i j : bp_close lk B bt i = Ok (Some j) -> j < 2 ^ 57.
Proof using Hrl Hb Hbig.
  intros E. unfold bp_close in E. destruct (_ <=? i); [discriminate|]. destruct (C105_fwd lk lkr B l bt i (-1) Hrl Hb Hbig ltac:(unfold in_i64; lia)) as (o & E' & Ho).
  rewrite (fwd_ref lk lkr B Hlr bt i (-1) _ E) in E'. injection E' as <-. cbn in Ho. lia.
Qed.
Lemma parent_ref i : ref (bp_parent lk B bt i) (bp_parent_rel lkr B bt i).
Proof using Hrl Hb Hbig.
  unfold bp_parent, bp_parent_rel, bp_enclose, bp_enclose_rel. node. destruct (_ <=? i); [apply ref_refl|]. apply ref_bind; [apply ref_refl|]. intros b. apply bwd_ref, Hlr.
Qed.
Lemma first_child_ref i : ref (bp_first_child bt i) (bp_first_child_rel bt i).
Proof using Hb Hbig. unfold bp_first_child, bp_first_child_rel. node. apply ref_refl. Qed.
Lemma is_leaf_ref i : ref (bp_is_leaf bt i) (bp_is_leaf_rel bt i).
Proof using Hb Hbig. unfold bp_is_leaf, bp_is_leaf_rel. node. apply ref_refl. Qed.
Lemma node_index_ref i : ref (bp_node_index bt i) (bp_node_index_rel bt i).
Proof using Hb Hbig. unfold bp_node_index, bp_node_index_rel. node. apply ref_refl. Qed.
Lemma depth_ref i : ref (bp_depth bt i) (bp_depth_rel bt i).
Proof using Hb Hbig.
  unfold bp_depth, bp_depth_rel. node. apply ref_bind; [|intros; apply ref_refl]. intros r E. pose proof (assert_in _ Ha) as Hn. pose proof (any_in _ _ Hn) as Hin.
  rewrite (C134_release B l bt i) by (auto; unfold U64; change (2 ^ 57) with 144115188075855872 in *; lia). destruct (N.eqb_spec i (U64 - 1)); [unfold U64 in *; change (2 ^ 57) with 144115188075855872 in *; lia|].
  rewrite (proj1 (C134_partial B l bt i Hb) Hin) in E. rewrite N.min_l by lia. rewrite <- E. reflexivity.
Qed.
Lemma next_sibling_ref i : ref (bp_next_sibling lk B bt i) (bp_next_sibling_rel lkr B bt i).
Proof using Hrl Hb Hbig.
  unfold bp_next_sibling, bp_next_sibling_rel. node. apply ref_skip. intros c Ec. rewrite (close_ref _ _ Ec). cbn [bind]. destruct c as [j|]; [|apply ref_refl]. rewrite (wadd1_small j) by (eapply close_lt; eauto). apply ref_refl.
Qed.
Lemma previous_sibling_ref i : ref (bp_previous_sibling lk B bt i) (bp_previous_sibling_rel lkr B bt i).
Proof using Hrl Hb Hbig.
  unfold bp_previous_sibling, bp_previous_sibling_rel. node. destruct (N.eqb_spec i 0); [apply ref_refl|]. replace (usub i 1) with (i - 1) by (unfold usub; destruct (N.leb_spec 1 i); [auto|lia]).
  apply ref_bind; [apply ref_refl|]. intros [b|]; [|apply ref_refl]. destruct (b =? 0); [apply open_ref'|apply ref_refl].
Qed.
Lemma last_child_ref i : ref (bp_last_child lk B bt i) (bp_last_child_rel lkr B bt i).
Proof using Hrl Hb Hbig.
  unfold bp_last_child, bp_last_child_rel. node. apply ref_bind; [apply ref_refl|]. intros [b|]; [|apply ref_refl]. destruct (b =? 1); [|apply ref_refl].
  apply ref_bind; [apply close_ref|]. intros [c|]; [|apply ref_refl]. apply sub_usub. apply open_ref'.
Qed.
Lemma is_ancestor_ref i d : ref (bp_is_ancestor lk B bt i d) (bp_is_ancestor_rel lkr B bt i d).
Proof using Hrl Hb Hbig.
  unfold bp_is_ancestor, bp_is_ancestor_rel. node. apply ref_skip. intros _ _. apply ref_bind; [apply close_ref|]. intros; apply ref_refl.
Qed.
Lemma level_next_ref i : ref (bp_level_next lk B bt i) (bp_level_next_rel lkr B bt i).
Proof using Hrl. unfold bp_level_next, bp_level_next_rel. apply ref_bind; [apply close_ref|]. intros [c|]; [apply fwd_ref, Hlr|apply ref_refl]. Qed.
Lemma level_prev_ref i : ref (bp_level_prev lk B bt i) (bp_level_prev_rel lkr B bt i).
Proof using Hrl. unfold bp_level_prev, bp_level_prev_rel. apply ref_bind; [apply bwd_ref, Hlr|]. intros [c|]; [apply open_ref'|apply ref_refl]. Qed.
Lemma subtree_size_ref i : ref (bp_subtree_size lk B bt i) (bp_subtree_size_rel lkr B bt i).
Proof using Hrl Hb Hbig.
  unfold bp_subtree_size, bp_subtree_size_rel. node. apply ref_bind; [apply close_ref|]. intros [c|]; [|apply ref_refl]. apply ref_bind; [apply ref_refl|]. intros r1. apply ref_bind; [apply ref_refl|]. intros r0. apply sub_usub, ref_refl.
Qed.
Lemma open_item_ref i : ref (bp_open_item lk B bt i) (bp_open_item_rel lkr B bt i).
Proof using Hrl. unfold bp_open_item, bp_open_item_rel. apply ref_bind; [apply open_ref'|]. intros; apply ref_refl. Qed.
Lemma children_ref fw i : ref (bp_children_list lk B fw bt i) (bp_children_list_rel lkr B fw bt i).
Proof using Hrl Hb Hbig.
  unfold bp_children_list, bp_children_list_rel. node. apply ref_bind; [destruct fw; [apply first_child_ref|apply last_child_ref]|]. intros first. apply ref_collect. intros [c|]; [|apply ref_refl]. cbn [bp_children_next bp_children_next_rel].
  apply ref_bind; [destruct fw; [apply next_sibling_ref|apply previous_sibling_ref]|]. intros; apply ref_refl.
Qed.
Lemma dfs_post_ref : ref (bp_dfs_post_list lk B bt) (bp_dfs_post_list_rel lkr B bt).
Proof using Hrl. unfold bp_dfs_post_list, bp_dfs_post_list_rel. apply ref_bind; [apply ref_refl|]. intros it. apply ref_collect, ref_map_next, open_item_ref. Qed.
Lemma subtree_ref i : ref (bp_subtree_list lk B bt i) (bp_subtree_list_rel lkr B bt i).
Proof using Hrl Hb Hbig.
  unfold bp_subtree_list, bp_subtree_list_rel. cbv zeta. node. apply ref_bind; [apply ref_refl|]. intros index. apply ref_bind; [apply close_ref|]. intros c. apply ref_bind; [apply ref_refl|]. intros r. apply sub_usub. apply ref_refl.
Qed.
Lemma subtree_post_ref i : ref (bp_subtree_post_list lk B bt i) (bp_subtree_post_list_rel lkr B bt i).
Proof using Hrl Hb Hbig.
  unfold bp_subtree_post_list, bp_subtree_post_list_rel. cbv zeta. node. apply ref_bind; [apply ref_refl|]. intros index. apply ref_bind; [apply close_ref|]. intros c. rewrite (np_rank0 B l bt Hb). cbn [bind].
  rewrite wadd1_small by (unfold rank_spec; match goal with |- count false (takeN ?p l) < _ => pose proof (count_le false (takeN p l)) as H; rewrite lenN_takeN in H; lia end).
  apply sub_usub. apply ref_bind; [apply ref_refl|]. intros it. apply ref_collect, ref_map_next, open_item_ref.
Qed.
End Handles.

(** Called with the position of an opening parenthesis, balanced expression or not, a release build
    answers as a debug build does. *)
Theorem C135_handles lk lkr B l bt node other : rel_lookup lk lkr -> aligned lk B -> built_from B l bt -> lenN l < 2 ^ 57 ->
  nthN false l node = true -> nthN false l other = true ->
  bp_close_rel lkr B bt node = bp_close lk B bt node /\ bp_enclose_rel lkr B bt node = bp_enclose lk B bt node /\
  bp_parent_rel lkr B bt node = bp_parent lk B bt node /\ bp_first_child_rel bt node = bp_first_child bt node /\
  bp_last_child_rel lkr B bt node = bp_last_child lk B bt node /\ bp_next_sibling_rel lkr B bt node = bp_next_sibling lk B bt node /\
  bp_previous_sibling_rel lkr B bt node = bp_previous_sibling lk B bt node /\ bp_node_index_rel bt node = bp_node_index bt node /\
  bp_is_leaf_rel bt node = bp_is_leaf bt node /\ bp_depth_rel bt node = bp_depth bt node /\
  bp_subtree_size_rel lkr B bt node = bp_subtree_size lk B bt node /\ bp_is_ancestor_rel lkr B bt node other = bp_is_ancestor lk B bt node other /\
  bp_level_next_rel lkr B bt node = bp_level_next lk B bt node /\ bp_level_prev_rel lkr B bt node = bp_level_prev lk B bt node /\
  bp_children_list_rel lkr B true bt node = bp_children_list lk B true bt node /\
  (forall r, bp_children_list lk B false bt node = Ok r -> bp_children_list_rel lkr B false bt node = Ok r) /\
  (forall r, bp_subtree_list lk B bt node = Ok r -> bp_subtree_list_rel lkr B bt node = Ok r) /\
  (forall r, bp_subtree_post_list lk B bt node = Ok r -> bp_subtree_post_list_rel lkr B bt node = Ok r) /\
  (forall r, bp_dfs_post_list lk B bt = Ok r -> bp_dfs_post_list_rel lkr B bt = Ok r).
Proof.
  intros Hrl Hal Hb Hbig Hn Ho. pose proof (rel_a_lookup _ _ Hrl) as Hlk. assert (Hfit : (Z.of_N (lenN l) + 2 <= 9223372036854775807)%Z) by (change (2 ^ 57) with 144115188075855872 in Hbig; lia).
  pose proof (any_in l node Hn) as Hin.
  destruct (C66_no_panic lk B l bt node other Hlk Hal Hb Hfit Hn Ho) as (P1 & P2 & P3 & P4 & P5 & P6 & P7 & P8 & P9 & _ & P11 & P12 & P13 & _).
  assert (E : forall A (a b : res A), no_panic a -> ref a b -> b = a) by (intros A a b (x & ->) H; now apply H).
  pose proof (any_assert B l bt Hb node Hn) as HA.
  repeat apply conj.
  - apply E; [|now apply close_ref]. destruct (any_close lk B l bt Hlk Hb Hfit node Hn) as (o & Eo & _). now exists o.
  - pose proof (E _ _ _ P1 (parent_ref lk lkr B l bt Hrl Hb Hbig node)) as H. unfold bp_parent_rel in H. rewrite H. unfold bp_parent. now rewrite HA.
  - apply E; [assumption|eapply parent_ref; eassumption].
  - apply E; [assumption|eapply first_child_ref; eassumption].
  - apply E; [assumption|eapply last_child_ref; eassumption].
  - apply E; [assumption|eapply next_sibling_ref; eassumption].
  - apply E; [assumption|eapply previous_sibling_ref; eassumption].
  - apply E; [assumption|eapply node_index_ref; eassumption].
  - apply E; [assumption|eapply is_leaf_ref; eassumption].
  - apply E; [assumption|eapply depth_ref; eassumption].
  - apply E; [assumption|eapply subtree_size_ref; eassumption].
  - apply E; [assumption|eapply is_ancestor_ref; eassumption].
  - apply E; [assumption|eapply level_next_ref; eassumption].
  - apply E; [assumption|eapply level_prev_ref; eassumption].
  - apply E; [|eapply children_ref; eassumption]. destruct (C133_forward lk B l bt node other Hlk Hb Hfit Hn Ho) as (_ & _ & _ & _ & _ & _ & _ & _ & _ & (r & Er & _) & _). now exists r.
  - eapply children_ref; eassumption.
  - eapply subtree_ref; eassumption.
  - eapply subtree_post_ref; eassumption.
  - eapply dfs_post_ref; eassumption.
Qed.

Lemma rel_close_closing lk lkr B l bt i : rel_lookup lk lkr -> built_from B l bt -> lenN l < 2 ^ 57 -> nthN true l i = false ->
  exists o, bp_close_rel lkr B bt i = Ok o /\ (forall j, o = Some j <-> next_closing l i j) /\ forall j, o = Some j -> i < j /\ j < lenN l.
Proof.
  intros Hrl Hb Hbig Hi. pose proof (closing_in l i Hi) as Hin. unfold bp_close_rel. rewrite (any_len B l bt Hb). destruct (N.leb_spec (lenN l) i); [lia|].
  destruct (C105_fwd lk lkr B l bt i (-1) Hrl Hb Hbig ltac:(unfold in_i64; lia)) as (o & E & Ho). exists o. split; [auto|]. split; [now apply fwd_closing|]. intros j ->. cbn in Ho. lia.
Qed.
Lemma rel_open_closing lk lkr B l bt j : rel_lookup lk lkr -> aligned lk B -> built_from B l bt -> lenN l < 2 ^ 57 -> nthN true l j = false ->
  exists o, bp_open_rel lkr B bt j = Ok o /\ forall i, o = Some i <-> exists s, tree_at l i s /\ j + 1 = i + lenN (enc s).
Proof.
  intros Hrl Hal Hb Hbig Hj. pose proof (closing_in l j Hj) as Hin. unfold bp_open_rel. rewrite (any_len B l bt Hb). destruct (N.leb_spec (lenN l) j); [lia|].
  destruct (C105_bwd lk lkr B l bt j (-1) Hrl Hb Hal Hbig ltac:(unfold in_i64; lia) Hin) as (o & E & Ho). exists o. split; [auto|]. apply bwd_tree; auto. now rewrite <- nth_def.
Qed.
Lemma tree_end l s t : tree_at l s t -> nthN true l (s + lenN (enc t) - 1) = false /\ 2 <= lenN (enc t) /\ s + lenN (enc t) <= lenN l.
Proof. intros H. destruct (tree_at_ex _ _ _ H) as (L & _ & C & _). pose proof (len_enc2 t). rewrite nth_def by lia. auto. Qed.
Lemma rel_previous lk lkr B l bt node : rel_lookup lk lkr -> aligned lk B -> built_from B l bt -> lenN l < 2 ^ 57 ->
  exists o, bp_previous_sibling_rel lkr B bt node = Ok o /\ forall s, o = Some s <-> exists t, tree_at l s t /\ node = s + lenN (enc t).
Proof.
  intros Hrl Hal Hb Hbig. unfold bp_previous_sibling_rel. destruct (N.eqb_spec node 0) as [->|Hz].
  - exists None. split; [auto|]. intros s. split; [discriminate|]. intros (t & Ht & E). pose proof (len_enc2 t). lia.
  - replace (usub node 1) with (node - 1) by (unfold usub; destruct (N.leb_spec 1 node); [auto|lia]). rewrite (any_open_get B l bt Hb). cbn [bind].
    destruct (N.ltb_spec (node - 1) (lenN l)) as [L|L].
    + rewrite <- nth_def by auto. destruct (nthN true l (node - 1)) eqn:Eb; cbn [bitN].
      * change (1 =? 0) with false. cbn iota. exists None. split; [auto|]. intros s. split; [discriminate|]. intros (t & Ht & E). apply tree_end in Ht. rewrite <- E in Ht. destruct Ht. congruence.
      * change (0 =? 0) with true. cbn iota. destruct (rel_open_closing lk lkr B l bt (node - 1) Hrl Hal Hb Hbig Eb) as (o & E & Ho). exists o. split; [auto|]. intros s. rewrite Ho. replace (node - 1 + 1) with node by lia. reflexivity.
    + exists None. split; [auto|]. intros s. split; [discriminate|]. intros (t & Ht & E). apply tree_end in Ht. lia.
Qed.

(** Called with the position of a closing parenthesis (which a debug build rejects), a release build
    does not panic; the nodes that [first_child], [next_sibling] and the others return are these. *)
Theorem C135_closing lk lkr B l bt node other : rel_lookup lk lkr -> aligned lk B -> built_from B l bt -> lenN l < 2 ^ 57 -> nthN true l node = false ->
  (exists o, bp_close_rel lkr B bt node = Ok o /\ forall j, o = Some j <-> next_closing l node j) /\
  (exists o, bp_parent_rel lkr B bt node = Ok o /\ forall p, o = Some p <-> exists q s, tree_at l q s /\ node + 1 = q + lenN (enc s) /\ inside l p q) /\
  bp_first_child_rel bt node = Ok (if nthN false l (node + 1) then Some (node + 1) else None) /\
  (exists o, bp_next_sibling_rel lkr B bt node = Ok o /\ forall s, o = Some s <-> exists j, next_closing l node j /\ s = j + 1 /\ nthN false l s = true) /\
  (exists o, bp_previous_sibling_rel lkr B bt node = Ok o /\ forall s, o = Some s <-> exists t, tree_at l s t /\ node = s + lenN (enc t)) /\
  (exists o, bp_last_child_rel lkr B bt node = Ok o /\ forall s, o = Some s <-> exists j t, next_closing l node j /\ nthN false l (node + 1) = true /\ tree_at l s t /\ j = s + lenN (enc t)) /\
  bp_node_index_rel bt node = Ok (count true (takeN node l)) /\
  bp_is_leaf_rel bt node = Ok (negb (nthN true l (node + 1))) /\
  bp_depth_rel bt node = Ok (Z.to_N (excess_before l (node + 1)) - 1) /\
  (exists o, bp_is_ancestor_rel lkr B bt node other = Ok o /\ forall b, o = Some b <-> exists j, next_closing l node j /\ b = (node <=? other) && (other <? j)) /\
  (exists o, bp_subtree_size_rel lkr B bt node = Ok o /\ forall k, o = Some k <-> exists j, next_closing l node j /\ k + count true (takeN node l) = count true (takeN j l)).
Proof.
  intros Hrl Hal Hb Hbig Hi. pose proof (closing_in l node Hi) as Hin. pose proof (any_len B l bt Hb) as Hlen. pose proof (any_open_get B l bt Hb) as HG. pose proof (np_rank1 B l bt Hb) as HR1.
  destruct (rel_close_closing lk lkr B l bt node Hrl Hb Hbig Hi) as (c & Ec & Hc & Hclt). assert (Hw : wrapping_add node 1 = node + 1) by (apply wadd1_small; lia).
  assert (Hget : rs_get (bp_vec bt) (node + 1) = Ok (if node + 1 <? lenN l then Some (bitN (nthN false l (node + 1))) else None)) by apply HG.
  repeat apply conj.
  - exists c. auto.
  - unfold bp_parent_rel, bp_enclose_rel. rewrite Hlen. destruct (N.leb_spec (lenN l) node); [lia|]. rewrite (any_getu B l bt Hb) by auto. cbn [bind]. rewrite <- nth_def, Hi by auto. cbn [bitN]. change (0 =? 1) with false. cbn iota.
    destruct (C105_bwd lk lkr B l bt node (-2) Hrl Hb Hal Hbig ltac:(unfold in_i64; lia) Hin) as (o & E & Ho). exists o. split; [auto|]. apply bwd_around; auto. now rewrite <- nth_def.
  - unfold bp_first_child_rel. rewrite Hw, Hget. cbn [bind]. destruct (N.ltb_spec (node + 1) (lenN l)) as [L|L]; [destruct (nthN false l (node + 1)); reflexivity|now rewrite nthN_overflow].
  - unfold bp_next_sibling_rel. rewrite Ec. cbn [bind]. destruct c as [j|].
    + pose proof (Hclt j eq_refl). rewrite wadd1_small, HG by lia. cbn [bind]. eexists. split; [reflexivity|]. intros s. pose proof (proj1 (Hc j) eq_refl) as Hj. split.
      * intros H'. exists j. destruct (N.ltb_spec (j + 1) (lenN l)) as [L|L]; [|discriminate]. destruct (nthN false l (j + 1)) eqn:Eb; cbn in H'; [|discriminate]. injection H' as <-. auto.
      * intros (j' & Hj' & -> & Eb). apply Hc in Hj'. injection Hj' as <-. pose proof (any_in _ _ Eb). destruct (N.ltb_spec (j + 1) (lenN l)); [|lia]. rewrite Eb. reflexivity.
    + exists None. split; [auto|]. intros s. split; [discriminate|]. intros (j & Hj & _). apply Hc in Hj. discriminate.
  - now apply rel_previous with lk.
  - unfold bp_last_child_rel. rewrite Hw, Hget. cbn [bind]. destruct (N.ltb_spec (node + 1) (lenN l)) as [L|L]; [destruct (nthN false l (node + 1)) eqn:Eb; cbn [bitN]|].
    + change (1 =? 1) with true. cbn iota. rewrite Ec. cbn [bind]. destruct c as [j|].
      * pose proof (Hclt j eq_refl) as [J1 J2]. pose proof (proj1 (Hc j) eq_refl) as Hj. replace (usub j 1) with (j - 1) by (unfold usub; destruct (N.leb_spec 1 j); [auto|lia]).
        assert (Ej : nthN true l (j - 1) = false).
        { pose proof Hj as Hx. apply next_closing_ex in Hx. destruct Hx as (_ & _ & _ & _ & E & M). assert (j <> node + 1) by (intros ->; apply next_closing_ex in Hj; destruct Hj as (_ & _ & _ & Hj & _); rewrite nth_def in Hj by lia; congruence).
          specialize (M (j - 1) ltac:(lia) ltac:(lia)). replace j with (j - 1 + 1) in E by lia. rewrite ex_succ in E by lia. rewrite nth_def by lia. destruct (nthN false l (j - 1)); [cbn [paren] in E; lia|auto]. }
        destruct (rel_open_closing lk lkr B l bt (j - 1) Hrl Hal Hb Hbig Ej) as (o & E & Ho). exists o. split; [auto|]. intros s. rewrite Ho. replace (j - 1 + 1) with j by lia. split.
        -- intros (t & Ht & E'). exists j, t. auto.
        -- intros (j' & t & Hj' & _ & Ht & E'). apply Hc in Hj'. injection Hj' as <-. eauto.
      * exists None. split; [auto|]. intros s. split; [discriminate|]. intros (j & t & Hj & _). apply Hc in Hj. discriminate.
    + change (0 =? 1) with false. cbn iota. exists None. split; [auto|]. intros s. split; [discriminate|]. intros (j & t & _ & H & _). discriminate.
    + exists None. split; [auto|]. intros s. split; [discriminate|]. intros (j & t & _ & H & _). apply any_in in H. lia.
  - unfold bp_node_index_rel. now rewrite HR1.
  - unfold bp_is_leaf_rel. rewrite Hw, Hget. cbn [bind]. destruct (N.ltb_spec (node + 1) (lenN l)) as [L|L]; [rewrite nth_def by auto; destruct (nthN false l (node + 1)); reflexivity|now rewrite nthN_overflow].
  - unfold bp_depth_rel. rewrite (C134_release B l bt node) by (auto; change (2 ^ 57) with 144115188075855872 in Hbig; unfold U64; lia). destruct (N.eqb_spec node (U64 - 1)); [change (2 ^ 57) with 144115188075855872 in Hbig; unfold U64 in *; lia|].
    cbn [bind]. rewrite N.min_l by lia. f_equal. destruct (Z.leb_spec 0 (excess_before l (node + 1))); [auto|]. lia.
  - unfold bp_is_ancestor_rel. rewrite Ec. cbn [bind]. eexists. split; [reflexivity|]. intros b. destruct c as [j|]; split; try discriminate.
    + intros H'. injection H' as <-. exists j. split; [now apply Hc|auto].
    + intros (j' & Hj' & ->). apply Hc in Hj'. now injection Hj' as <-.
    + intros (j & Hj & _). apply Hc in Hj. discriminate.
  - unfold bp_subtree_size_rel. rewrite Ec. cbn [bind]. destruct c as [j|].
    + rewrite !HR1. cbn [bind]. eexists. split; [reflexivity|]. pose proof (Hclt j eq_refl) as [J1 J2]. unfold rank_spec.
      assert (Hle : count true (takeN node l) <= count true (takeN j l)).
      { rewrite <- (firstn_skipn (N.to_nat node) (takeN j l)), count_app. unfold takeN. rewrite firstn_firstn. replace (Nat.min (N.to_nat node) (N.to_nat j)) with (N.to_nat node) by lia. lia. }
      unfold usub. destruct (N.leb_spec (count true (takeN node l)) (count true (takeN j l))); [|lia]. intros k. split.
      * intros H'. injection H' as <-. exists j. split; [now apply Hc|lia].
      * intros (j' & Hj' & E). apply Hc in Hj'. injection Hj' as <-. f_equal. lia.
    + exists None. split; [auto|]. intros k. split; [discriminate|]. intros (j & Hj & _). apply Hc in Hj. discriminate.
Qed.

(** Called with a position beyond the end, a release build does not panic. [previous_sibling] of the
    position just behind the expression is its last root; the largest [usize] wraps to position 0. *)
Theorem C135_beyond lk lkr B l bt node other : rel_lookup lk lkr -> aligned lk B -> built_from B l bt -> lenN l < 2 ^ 57 -> lenN l <= node -> node < U64 ->
  bp_close_rel lkr B bt node = Ok None /\ bp_enclose_rel lkr B bt node = Ok None /\ bp_parent_rel lkr B bt node = Ok None /\
  bp_first_child_rel bt node = Ok (if (node =? U64 - 1) && nthN false l 0 then Some 0 else None) /\
  bp_next_sibling_rel lkr B bt node = Ok None /\
  (exists o, bp_previous_sibling_rel lkr B bt node = Ok o /\ forall s, o = Some s <-> node = lenN l /\ exists t a, l = a ++ enc t /\ s = lenN a) /\
  bp_last_child_rel lkr B bt node = Ok None /\
  bp_node_index_rel bt node = Ok (count true l) /\
  bp_is_leaf_rel bt node = Ok ((node =? U64 - 1) && negb (nthN true l 0)) /\
  bp_depth_rel bt node = Ok (if node =? U64 - 1 then 0 else Z.to_N (excess_before l (lenN l)) - 1) /\
  bp_is_ancestor_rel lkr B bt node other = Ok None /\ bp_level_next_rel lkr B bt node = Ok None /\ bp_level_prev_rel lkr B bt node = Ok None /\
  bp_subtree_size_rel lkr B bt node = Ok None /\
  bp_children_list_rel lkr B false bt node = Ok [].
Proof.
  intros Hrl Hal Hb Hbig Hn Hu. pose proof (any_len B l bt Hb) as Hlen. pose proof (any_open_get B l bt Hb) as HG. pose proof (np_rank1 B l bt Hb) as HR1.
  assert (Hc : bp_close_rel lkr B bt node = Ok None) by (unfold bp_close_rel; rewrite Hlen; destruct (N.leb_spec (lenN l) node); [auto|lia]).
  assert (He : bp_enclose_rel lkr B bt node = Ok None) by (unfold bp_enclose_rel; rewrite Hlen; destruct (N.leb_spec (lenN l) node); [auto|lia]).
  assert (Hw : rs_get (bp_vec bt) (wrapping_add node 1) = Ok (if (node =? U64 - 1) && (0 <? lenN l) then Some (bitN (nthN false l 0)) else None)).
  { rewrite wadd1, HG by auto. destruct (N.eqb_spec node (U64 - 1)); cbn [andb]; [auto|]. destruct (N.ltb_spec (node + 1) (lenN l)); [lia|auto]. }
  assert (Hl : bp_last_child_rel lkr B bt node = Ok None).
  { unfold bp_last_child_rel. rewrite Hw. cbn [bind]. destruct (_ && _); [|auto]. destruct (_ =? 1); [|auto]. now rewrite Hc. }
  repeat apply conj; auto.
  - unfold bp_first_child_rel. rewrite Hw. cbn [bind]. rewrite wadd1 by auto. destruct (N.eqb_spec node (U64 - 1)); cbn [andb]; [|auto]. destruct (N.ltb_spec 0 (lenN l)); [destruct (nthN false l 0); reflexivity|now rewrite nthN_overflow].
  - unfold bp_next_sibling_rel. now rewrite Hc.
  - destruct (rel_previous lk lkr B l bt node Hrl Hal Hb Hbig) as (o & E & Ho). exists o. split; [auto|]. intros s. rewrite Ho. split.
    + intros (t & Ht & ->). destruct (tree_end _ _ _ Ht) as (_ & _ & L). split; [lia|]. destruct Ht as (a & b & -> & <-). rewrite !lenN_app in *. assert (b = []) by (destruct b; [auto|rewrite lenN_cons in *; lia]). subst b. exists t, a. now rewrite app_nil_r.
    + intros (-> & t & a & -> & ->). exists t. split; [exists a, []; now rewrite app_nil_r|]. now rewrite lenN_app.
  - unfold bp_node_index_rel. rewrite HR1. unfold rank_spec. now rewrite takeN_all.
  - unfold bp_is_leaf_rel. rewrite Hw. cbn [bind]. destruct (N.eqb_spec node (U64 - 1)); cbn [andb]; [|auto]. destruct (N.ltb_spec 0 (lenN l)); [rewrite nth_def by auto; destruct (nthN false l 0); reflexivity|now rewrite nthN_overflow].
  - unfold bp_depth_rel. rewrite (C134_release B l bt node) by auto. cbn [bind]. destruct (N.eqb_spec node (U64 - 1)); [reflexivity|]. rewrite N.min_r by lia. f_equal. destruct (Z.leb_spec 0 (excess_before l (lenN l))); [auto|lia].
  - unfold bp_is_ancestor_rel. now rewrite Hc.
  - unfold bp_level_next_rel. now rewrite Hc.
  - unfold bp_level_prev_rel. now rewrite (C105_out_of_range lkr B l bt node 1 Hb Hn).
  - unfold bp_subtree_size_rel. now rewrite Hc.
  - unfold bp_children_list_rel. rewrite Hl. reflexivity.
Qed.
(** "(()())": nodes 0, 1, 3; closing parentheses 2, 4, 5. *)
Example C135_ex : rel_lookup lookup8 lookup8_rel /\ aligned lookup8 4 /\ next_closing [true; true; false; true; false; false] 2 5 /\
  (let* t := mk 4 [true; true; false; true; false; false] in
   let* a := bp_next_sibling_rel lookup8_rel 4 t 1 in let* b := bp_last_child_rel lookup8_rel 4 t 2 in let* c := bp_subtree_size_rel lookup8_rel 4 t 2 in
   let* d := bp_previous_sibling_rel lookup8_rel 4 t 6 in let* e := bp_first_child_rel t (U64 - 1) in let* f := bp_depth_rel t 3 in Ok (a, b, c, d, e, f))
  = Ok (Some 3, Some 3, Some 1, Some 0, Some 0, 1) /\
  (let* t := mk 4 [true; true; false; true; false; false] in bp_next_sibling lookup8 4 t 2) = Panic.
Proof.
  split; [left; auto|]. split; [right; reflexivity|]. split; [exists [true; true], [Node []], []; auto|]. vm_compute. auto.
Qed.
