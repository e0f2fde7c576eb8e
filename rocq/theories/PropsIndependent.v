(** * Property C138: the answers of a tree depend on the parentheses only, not on the block size, the
      lookup table or the unused bits of the vector. *)
From Verif Require Import Base Spec BaseFacts WordFacts BitVecModel BitVecProofs RsVecModel RsVecProofs RsVecSelect RsEqProofs RsIterModel RsIterProofs
  BpModel BpExcess BpLookup BpMmt BpSearch BpBlock BpTreeSpec BpTreeFacts BpTreeProofs IterFacts PropsBp PropsUnbalanced.

Lemma fwd_unique l i d o o' : is_fwd l i d o -> is_fwd l i d o' -> o = o'.
Proof.
  unfold is_fwd. destruct o as [j|], o' as [j'|]; intros H H'; auto.
  - destruct H as (A & B & C & D), H' as (A' & B' & C' & D'). f_equal. destruct (N.lt_trichotomy j j') as [L|[L|L]]; [exfalso; now apply (D' j)|auto|exfalso; now apply (D j')].
  - destruct H as (A & B & C & D). exfalso. now apply (H' j).
  - destruct H' as (A & B & C & D). exfalso. now apply (H j').
Qed.
Lemma bwd_unique l i d o o' : is_bwd l i d o -> is_bwd l i d o' -> o = o'.
Proof.
  unfold is_bwd. destruct o as [j|], o' as [j'|]; intros H H'; auto.
  - destruct H as (A & C & D), H' as (A' & C' & D'). f_equal. destruct (N.lt_trichotomy j j') as [L|[L|L]]; [exfalso; now apply (D j')|auto|exfalso; now apply (D' j)].
  - destruct H as (A & C & D). exfalso. now apply (H' j).
  - destruct H' as (A & C & D). exfalso. now apply (H j').
Qed.
Lemma collect_same {S S' A C} (R : S -> list A -> Prop) (R' : S' -> list A -> Prop) next next' (f f' : A -> res C) :
  (forall s l, R s l -> exists s', next s = Ok (s', getN l 0) /\ R s' (dropN 1 l)) ->
  (forall s l, R' s l -> exists s', next' s = Ok (s', getN l 0) /\ R' s' (dropN 1 l)) ->
  (forall x, f x = f' x) -> forall fuel s s' l, R s l -> R' s' l -> collect fuel (map_next next f) s = collect fuel (map_next next' f') s'.
Proof.
  intros H H' Hf. induction fuel as [|fuel IH]; intros s s' l HR HR'; [reflexivity|]. cbn [collect]. unfold map_next at 1 3. destruct (H s l HR) as (t & E & Ht). destruct (H' s' l HR') as (t' & E' & Ht'). rewrite E, E'. cbn [bind].
  destruct (getN l 0) as [x|]; [|reflexivity]. rewrite Hf. destruct (f' x); [|reflexivity|reflexivity]. cbn [bind]. now rewrite (IH t t' (dropN 1 l)).
Qed.
Lemma collect_ext {S A} (next next' : S -> res (S * option A)) : (forall s, next s = next' s) -> forall fuel s, collect fuel next s = collect fuel next' s.
Proof.
  intros H. induction fuel as [|fuel IH]; intros s; [reflexivity|]. cbn [collect]. rewrite H. destruct (next' s) as [[t o]| |]; [|reflexivity|reflexivity]. cbn [bind]. destruct o; [|reflexivity]. now rewrite IH.
Qed.
Lemma bind_ext {A C} (m : res A) (f g : A -> res C) : (forall x, f x = g x) -> bind m f = bind m g.
Proof. intros H. destruct m; cbn [bind]; auto. Qed.

Section Two.
Variables (lk lk' : lookup) (B B' : N) (l : list bool) (bt bt' : bptree).
Hypothesis Hlk : a_lookup lk.
Hypothesis Hlk' : a_lookup lk'.
Hypothesis Hb : built_from B l bt.
Hypothesis Hb' : built_from B' l bt'.
Hypothesis Hfit : (Z.of_N (lenN l) + 2 <= 9223372036854775807)%Z.
Lemma two_len : rlen (bp_vec bt) = rlen (bp_vec bt'). Proof using Hb Hb'. now rewrite (any_len B l bt Hb), (any_len B' l bt' Hb'). Qed.
Lemma two_get i : rs_get (bp_vec bt) i = rs_get (bp_vec bt') i. Proof using Hb Hb'. now rewrite (any_get B l bt Hb), (any_get B' l bt' Hb'). Qed.
Lemma two_rank1 i : rs_rank1 (bp_vec bt) i = rs_rank1 (bp_vec bt') i. Proof using Hb Hb'. now rewrite (np_rank1 B l bt Hb), (np_rank1 B' l bt' Hb'). Qed.
Lemma two_rank0 i : rs_rank0 (bp_vec bt) i = rs_rank0 (bp_vec bt') i. Proof using Hb Hb'. now rewrite (np_rank0 B l bt Hb), (np_rank0 B' l bt' Hb'). Qed.
Lemma two_select i : rs_select1 (bp_vec bt) i = rs_select1 (bp_vec bt') i.
Proof using Hb Hb'.
  destruct (built_good _ _ _ Hb) as (bv & G & Hl & _). destruct (built_good _ _ _ Hb') as (bv' & G' & Hl' & _).
  rewrite (rs_select1_ok bv), (rs_select1_ok bv') by (apply G || apply G'). now rewrite Hl, Hl'.
Qed.
Lemma two_assert i : bp_assert_node bt i = bp_assert_node bt' i. Proof using Hb Hb'. unfold bp_assert_node. now rewrite two_get. Qed.
Lemma two_fuel : bp_fuel bt = bp_fuel bt'. Proof using Hb Hb'. unfold bp_fuel. now rewrite two_len. Qed.
Lemma two_fwd i d : (Z.abs d + Z.of_N (lenN l) <= 9223372036854775807)%Z -> bp_fwd_search lk B bt i d = bp_fwd_search lk' B' bt' i d.
Proof using Hlk Hlk' Hb Hb'.
  intros Hd. destruct (list_eq_dec Bool.bool_dec l []) as [El|El].
  - unfold bp_fwd_search. now rewrite (any_len B l bt Hb), (any_len B' l bt' Hb'), El.
  - destruct (C41_partial lk B l bt i d Hlk Hb El Hd) as (o & E & H). destruct (C41_partial lk' B' l bt' i d Hlk' Hb' El Hd) as (o' & E' & H'). rewrite E, E'. f_equal. eapply fwd_unique; eauto.
Qed.
Lemma two_close i : bp_close lk B bt i = bp_close lk' B' bt' i.
Proof using Hlk Hlk' Hb Hb' Hfit. unfold bp_close. rewrite two_len. rewrite two_fwd by lia. reflexivity. Qed.
Lemma two_next i : bp_next_sibling lk B bt i = bp_next_sibling lk' B' bt' i.
Proof using Hlk Hlk' Hb Hb' Hfit.
  unfold bp_next_sibling. rewrite two_assert. apply bind_ext. intros _. rewrite two_close. apply bind_ext. intros [c|]; [|reflexivity]. now rewrite two_get.
Qed.
Lemma two_first i : bp_first_child bt i = bp_first_child bt' i.
Proof using Hb Hb'. unfold bp_first_child. now rewrite two_assert, two_get. Qed.
Lemma two_sel zero (f f' : N -> res N) : (forall x, f x = f' x) -> forall fuel,
  (let* it := sel_new zero (bp_vec bt) in collect fuel (map_next (sel_next zero (bp_vec bt)) f) it) = (let* it := sel_new zero (bp_vec bt') in collect fuel (map_next (sel_next zero (bp_vec bt')) f') it).
Proof using Hb Hb'.
  intros Hf fuel. destruct (built_good _ _ _ Hb) as (bv & G & Hl & _). destruct (built_good _ _ _ Hb') as (bv' & G' & Hl' & _).
  destruct (sel_new_ok zero bv (bp_vec bt) (bg_wf _ _ _ G) (bg_rs _ _ _ G)) as (it & E & HR). destruct (sel_new_ok zero bv' (bp_vec bt') (bg_wf _ _ _ G') (bg_rs _ _ _ G')) as (it' & E' & HR'). rewrite E, E'. cbn [bind].
  unfold posz in HR, HR'. rewrite Hl in HR. rewrite Hl' in HR'. eapply (collect_same _ _ _ _ f f'); [..|exact HR|exact HR']; [|..|exact Hf].
  - intros s m. apply (sel_next_ok zero bv (bp_vec bt) (bg_wf _ _ _ G) (bg_rs _ _ _ G)).
  - intros s m. apply (sel_next_ok zero bv' (bp_vec bt') (bg_wf _ _ _ G') (bg_rs _ _ _ G')).
Qed.
Lemma two_take zero (f f' : N -> res N) : (forall x, f x = f' x) -> forall fuel index size,
  (let* it := sel_new zero (bp_vec bt) in collect fuel (map_next (take_next (skip_next (sel_next zero (bp_vec bt)) (sel_nth zero (bp_vec bt)))) f) ((it, index), size)) =
  (let* it := sel_new zero (bp_vec bt') in collect fuel (map_next (take_next (skip_next (sel_next zero (bp_vec bt')) (sel_nth zero (bp_vec bt')))) f') ((it, index), size)).
Proof using Hb Hb'.
  intros Hf fuel index size. destruct (built_good _ _ _ Hb) as (bv & G & Hl & _). destruct (built_good _ _ _ Hb') as (bv' & G' & Hl' & _).
  destruct (sel_new_ok zero bv (bp_vec bt) (bg_wf _ _ _ G) (bg_rs _ _ _ G)) as (it & E & HR). destruct (sel_new_ok zero bv' (bp_vec bt') (bg_wf _ _ _ G') (bg_rs _ _ _ G')) as (it' & E' & HR'). rewrite E, E'. cbn [bind].
  unfold posz in HR, HR'. rewrite Hl in HR. rewrite Hl' in HR'.
  eapply (collect_same _ _ _ _ f f' (take_step zero bv (bp_vec bt) (bg_wf _ _ _ G) (bg_rs _ _ _ G)) (take_step zero bv' (bp_vec bt') (bg_wf _ _ _ G') (bg_rs _ _ _ G')) Hf).
  - eexists _, _. cbn [fst snd]. split; [exact HR|]. split; reflexivity.
  - eexists _, _. cbn [fst snd]. split; [exact HR'|]. split; reflexivity.
Qed.
Lemma map_ok {S A} (next : S -> res (S * option A)) fuel s : collect fuel (map_next next (fun x => Ok x)) s = collect fuel next s.
Proof using. apply collect_ext. intros t. unfold map_next. destruct (next t) as [[t' [x|]]| |]; reflexivity. Qed.

Hypothesis Hal : aligned lk B.
Hypothesis Hal' : aligned lk' B'.
Lemma two_bwd i d : (Z.abs d + Z.of_N (lenN l) <= 9223372036854775807)%Z -> bp_bwd_search lk B bt i d = bp_bwd_search lk' B' bt' i d.
Proof using Hlk Hlk' Hb Hb' Hal Hal'.
  intros Hd. destruct (N.ltb_spec i (lenN l)) as [L|L].
  - destruct (C42_partial lk B l bt i d Hlk Hb Hal L Hd) as (o & E & H). destruct (C42_partial lk' B' l bt' i d Hlk' Hb' Hal' L Hd) as (o' & E' & H'). rewrite E, E'. f_equal. eapply bwd_unique; eauto.
  - now rewrite (C42_out_of_range lk B l bt), (C42_out_of_range lk' B' l bt').
Qed.
Lemma two_open i : bp_open lk B bt i = bp_open lk' B' bt' i.
Proof using Hlk Hlk' Hb Hb' Hfit Hal Hal'. unfold bp_open. rewrite two_len. rewrite two_bwd by lia. reflexivity. Qed.
Lemma two_item i : bp_open_item lk B bt i = bp_open_item lk' B' bt' i.
Proof using Hlk Hlk' Hb Hb' Hfit Hal Hal'. unfold bp_open_item. now rewrite two_open. Qed.
Lemma two_enclose i : bp_enclose lk B bt i = bp_enclose lk' B' bt' i.
Proof using Hlk Hlk' Hb Hb' Hfit Hal Hal'.
  unfold bp_enclose. rewrite two_len, (any_len B' l bt' Hb'). destruct (N.leb_spec (lenN l) i); [reflexivity|]. rewrite (any_getu B l bt Hb), (any_getu B' l bt' Hb') by auto. cbn [bind]. apply two_bwd. destruct (_ =? 1); lia.
Qed.
Lemma two_prev i : bp_previous_sibling lk B bt i = bp_previous_sibling lk' B' bt' i.
Proof using Hlk Hlk' Hb Hb' Hfit Hal Hal'.
  unfold bp_previous_sibling. rewrite two_assert. apply bind_ext. intros _. destruct (i =? 0); [reflexivity|]. rewrite two_get. apply bind_ext. intros [b|]; [|reflexivity]. destruct (b =? 0); [apply two_open|reflexivity].
Qed.
Lemma two_last i : bp_last_child lk B bt i = bp_last_child lk' B' bt' i.
Proof using Hlk Hlk' Hb Hb' Hfit Hal Hal'.
  unfold bp_last_child. rewrite two_assert. apply bind_ext. intros _. rewrite two_get. apply bind_ext. intros [b|]; [|reflexivity]. destruct (b =? 1); [|reflexivity]. rewrite two_close. apply bind_ext. intros [c|]; [|reflexivity]. apply bind_ext. intros. apply two_open.
Qed.
End Two.

(** Any two block sizes, any two lookup tables. [i] and [j] are arbitrary numbers: where one tree panics, so does the other. *)
Theorem C138_forward lk lk' B B' l bt bt' i j :
  a_lookup lk -> a_lookup lk' -> built_from B l bt -> built_from B' l bt' -> (Z.of_N (lenN l) + 2 <= 9223372036854775807)%Z ->
  bp_close lk B bt i = bp_close lk' B' bt' i /\
  bp_first_child bt i = bp_first_child bt' i /\ bp_next_sibling lk B bt i = bp_next_sibling lk' B' bt' i /\
  bp_is_leaf bt i = bp_is_leaf bt' i /\ bp_depth bt i = bp_depth bt' i /\ bp_excess bt i = bp_excess bt' i /\
  bp_node_index bt i = bp_node_index bt' i /\ bp_node_handle bt i = bp_node_handle bt' i /\ bp_root bt = bp_root bt' /\ bp_size bt = bp_size bt' /\
  bp_subtree_size lk B bt i = bp_subtree_size lk' B' bt' i /\ bp_is_ancestor lk B bt i j = bp_is_ancestor lk' B' bt' i j /\ bp_level_next lk B bt i = bp_level_next lk' B' bt' i /\
  bp_dfs_list bt = bp_dfs_list bt' /\ bp_subtree_list lk B bt i = bp_subtree_list lk' B' bt' i /\ bp_children_list lk B true bt i = bp_children_list lk' B' true bt' i /\
  (forall d, (Z.abs d + Z.of_N (lenN l) <= 9223372036854775807)%Z -> bp_fwd_search lk B bt i d = bp_fwd_search lk' B' bt' i d) /\
  (forall k, Z.of_N k + Z.of_N (lenN l) <= 9223372036854775807 -> bp_level_leftmost lk B bt k = bp_level_leftmost lk' B' bt' k)%Z.
Proof.
  intros Hlk Hlk' Hb Hb' Hfit. pose proof (two_len B B' l bt bt' Hb Hb') as L. pose proof (two_get B B' l bt bt' Hb Hb') as G. pose proof (two_rank1 B B' l bt bt' Hb Hb') as R1. pose proof (two_rank0 B B' l bt bt' Hb Hb') as R0.
  pose proof (two_assert B B' l bt bt' Hb Hb') as A. pose proof (two_close lk lk' B B' l bt bt' Hlk Hlk' Hb Hb' Hfit) as C. pose proof (two_fuel B B' l bt bt' Hb Hb') as F. pose proof (fun i d => two_fwd lk lk' B B' l bt bt' Hlk Hlk' Hb Hb' i d) as W.
  assert (X : bp_excess bt i = bp_excess bt' i) by (unfold bp_excess; now rewrite L, R1, R0).
  repeat apply conj.
  - apply C.
  - now apply two_first with B B' l.
  - now apply two_next with l.
  - unfold bp_is_leaf. now rewrite A, G.
  - unfold bp_depth. now rewrite A, X.
  - exact X.
  - unfold bp_node_index. now rewrite A, R1.
  - now apply two_select with B B' l.
  - unfold bp_root. now rewrite L.
  - unfold bp_size. now rewrite L, R1.
  - unfold bp_subtree_size. rewrite A. apply bind_ext. intros _. rewrite C. apply bind_ext. intros [c|]; [|reflexivity]. now rewrite !R1.
  - unfold bp_is_ancestor. now rewrite !A, C.
  - unfold bp_level_next. rewrite C. apply bind_ext. intros [c|]; [|reflexivity]. apply W. lia.
  - pose proof (two_sel B B' l bt bt' Hb Hb' false (fun x => Ok x) (fun x => Ok x) (fun x => eq_refl) (bp_fuel bt')) as H. unfold bp_dfs_list, bp_dfs_iter. rewrite F. destruct (sel_new false (bp_vec bt)), (sel_new false (bp_vec bt')); cbn [bind] in *; rewrite ?map_ok in H; auto.
  - unfold bp_subtree_list. rewrite A. apply bind_ext. intros _. rewrite R1. apply bind_ext. intros index. rewrite C. apply bind_ext. intros c. rewrite R1. apply bind_ext. intros r. apply bind_ext. intros size.
    pose proof (two_take B B' l bt bt' Hb Hb' false (fun x => Ok x) (fun x => Ok x) (fun x => eq_refl) (bp_fuel bt') index size) as H. rewrite F. destruct (sel_new false (bp_vec bt)), (sel_new false (bp_vec bt')); cbn [bind] in *; rewrite ?map_ok in H; auto.
  - unfold bp_children_list. rewrite A. apply bind_ext. intros _. rewrite (two_first B B' l bt bt' Hb Hb'). apply bind_ext. intros o. rewrite F. apply collect_ext. intros [c|]; cbn [bp_children_next]; [|reflexivity]. now rewrite (two_next lk lk' B B' l bt bt').
  - intros d. apply W.
  - intros k Hk. unfold bp_level_leftmost. destruct (k =? 0)%N; [reflexivity|]. apply W. unfold as_i64. destruct (N.ltb_spec k (2 ^ 63)); [lia|]. change (2 ^ 63)%N with 9223372036854775808%N in *. lia.
Qed.
(** Block sizes that fit the lookup tables. *)
Theorem C138_backward lk lk' B B' l bt bt' i :
  a_lookup lk -> a_lookup lk' -> built_from B l bt -> built_from B' l bt' -> (Z.of_N (lenN l) + 2 <= 9223372036854775807)%Z -> aligned lk B -> aligned lk' B' ->
  bp_open lk B bt i = bp_open lk' B' bt' i /\ bp_enclose lk B bt i = bp_enclose lk' B' bt' i /\ bp_parent lk B bt i = bp_parent lk' B' bt' i /\
  bp_previous_sibling lk B bt i = bp_previous_sibling lk' B' bt' i /\ bp_last_child lk B bt i = bp_last_child lk' B' bt' i /\ bp_level_prev lk B bt i = bp_level_prev lk' B' bt' i /\
  bp_dfs_post_list lk B bt = bp_dfs_post_list lk' B' bt' /\ bp_subtree_post_list lk B bt i = bp_subtree_post_list lk' B' bt' i /\ bp_children_list lk B false bt i = bp_children_list lk' B' false bt' i /\
  (forall d, (Z.abs d + Z.of_N (lenN l) <= 9223372036854775807)%Z -> bp_bwd_search lk B bt i d = bp_bwd_search lk' B' bt' i d) /\
  (forall k, Z.of_N k + Z.of_N (lenN l) <= 9223372036854775807 -> bp_level_ancestor lk B bt i k = bp_level_ancestor lk' B' bt' i k /\ bp_level_rightmost lk B bt k = bp_level_rightmost lk' B' bt' k)%Z.
Proof.
  intros Hlk Hlk' Hb Hb' Hfit Hal Hal'. pose proof (two_len B B' l bt bt' Hb Hb') as L. pose proof (two_rank1 B B' l bt bt' Hb Hb') as R1. pose proof (two_rank0 B B' l bt bt' Hb Hb') as R0.
  pose proof (two_assert B B' l bt bt' Hb Hb') as A. pose proof (two_close lk lk' B B' l bt bt' Hlk Hlk' Hb Hb' Hfit) as C. pose proof (two_fuel B B' l bt bt' Hb Hb') as F.
  pose proof (two_open lk lk' B B' l bt bt' Hlk Hlk' Hb Hb' Hfit Hal Hal') as O. pose proof (two_item lk lk' B B' l bt bt' Hlk Hlk' Hb Hb' Hfit Hal Hal') as I. pose proof (fun i d => two_bwd lk lk' B B' l bt bt' Hlk Hlk' Hb Hb' Hal Hal' i d) as W.
  pose proof (two_enclose lk lk' B B' l bt bt' Hlk Hlk' Hb Hb' Hfit Hal Hal') as E. pose proof (two_prev lk lk' B B' l bt bt' Hlk Hlk' Hb Hb' Hfit Hal Hal') as P. pose proof (two_last lk lk' B B' l bt bt' Hlk Hlk' Hb Hb' Hfit Hal Hal') as La.
  repeat apply conj.
  - apply O.
  - apply E.
  - unfold bp_parent. now rewrite A, E.
  - apply P.
  - apply La.
  - unfold bp_level_prev. rewrite W by lia. apply bind_ext. intros [c|]; [apply O|reflexivity].
  - unfold bp_dfs_post_list. rewrite F. now apply two_sel with B B' l.
  - unfold bp_subtree_post_list. rewrite A. apply bind_ext. intros _. rewrite R0. apply bind_ext. intros index. rewrite C. apply bind_ext. intros c. rewrite R0. apply bind_ext. intros r. apply bind_ext. intros size. rewrite F. now apply two_take with B B' l.
  - unfold bp_children_list. rewrite A. apply bind_ext. intros _. rewrite La. apply bind_ext. intros o. rewrite F. apply collect_ext. intros [c|]; cbn [bp_children_next]; [|reflexivity]. now rewrite P.
  - intros d. apply W.
  - intros k Hk. assert (Ek : as_i64 k = Z.of_N k) by (unfold as_i64; destruct (N.ltb_spec k (2 ^ 63)); [auto|change (2 ^ 63)%N with 9223372036854775808%N in *; lia]). split.
    + unfold bp_level_ancestor. destruct (k =? 0)%N; [reflexivity|]. rewrite Ek, i64_ok by lia. cbn [bind]. apply W. lia.
    + unfold bp_level_rightmost. assert (S : bp_size bt = bp_size bt') by (unfold bp_size; now rewrite L, R1). rewrite S. apply bind_ext. intros s. apply bind_ext. intros last. rewrite Ek, W by lia. apply bind_ext. intros [c|]; [apply O|reflexivity].
Qed.
(** The condition on the block size is needed: with blocks of 12 the post-order of the same tree differs from the one with blocks of 8. *)
Theorem C138_alignment_needed : exists l bt bt', built_from 8 l bt /\ built_from 12 l bt' /\ aligned lookup8 8 /\ bp_dfs_post_list lookup8 8 bt <> bp_dfs_post_list lookup8 12 bt'.
Proof.
  destruct (mk 8 (enc mis_tree)) as [bt| |] eqn:E; [|vm_compute in E; discriminate E|vm_compute in E; discriminate E].
  destruct (mk 12 (enc mis_tree)) as [bt'| |] eqn:E'; [|vm_compute in E'; discriminate E'|vm_compute in E'; discriminate E'].
  exists (enc mis_tree), bt, bt'. split; [|split; [|split; [left; reflexivity|]]].
  - apply mk_built; [reflexivity|exact E].
  - apply mk_built; [reflexivity|exact E'].
  - assert (H : (let* bt := mk 8 (enc mis_tree) in bp_dfs_post_list lookup8 8 bt) = Ok (map (handle mis_tree) (postorder mis_tree))) by (vm_compute; reflexivity).
    assert (H' : (let* bt := mk 12 (enc mis_tree) in bp_dfs_post_list lookup8 12 bt) = Ok [15; 19; 18; 17; 18; 17; 14; 11; 10; 9; 8; 7; 6; 5; 4; 3; 2; 1; 0]) by (vm_compute; reflexivity).
    rewrite E in H. rewrite E' in H'. cbn [bind] in H, H'. rewrite H, H'. vm_compute. discriminate.
Qed.
(** An unbalanced expression in blocks of 4 and of 16. *)
Example C138_ex : aligned lookup8 4 /\ aligned lookup8 16 /\
  (exists bt bt', mk 4 ex_unbal = Ok bt /\ mk 16 ex_unbal = Ok bt' /\ lenN (bp_mmt bt) <> lenN (bp_mmt bt') /\
   bp_parent lookup8 4 bt 8 = Ok (Some 7) /\ bp_parent lookup8 16 bt' 8 = Ok (Some 7) /\ bp_close lookup8 4 bt 6 = bp_close lookup8 16 bt' 6).
Proof.
  split; [right; reflexivity|]. split; [left; reflexivity|]. eexists _, _. split; [vm_compute; reflexivity|]. split; [vm_compute; reflexivity|]. split; [vm_compute; discriminate|]. vm_compute. auto.
Qed.
