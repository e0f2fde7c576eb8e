(** * Property C136: iterators over subtrees and children of expressions that need not be balanced. *)
From Verif Require Import Base Spec BaseFacts WordFacts BitVecModel BitVecProofs RsVecModel RsVecProofs RsVecSelect RsEqProofs RsIterModel RsIterProofs
  BpModel BpExcess BpLookup BpMmt BpSearch BpBlock BpTreeSpec BpTreeFacts BpTreeProofs IterFacts PropsBp PropsBitSet PropsUnbalanced.

Lemma tree_at_sub l i s q r : tree_at l i s -> subtree s q = Some r -> tree_at l (i + handle s q) r.
Proof.
  intros (a & b & -> & <-) Hq. destruct (node_split s q r Hq) as (pre & post & H1 & H2 & _). exists (a ++ pre), (post ++ b). rewrite H1, lenN_app, H2. split; [|reflexivity]. now rewrite <- !app_assoc.
Qed.
Lemma take_close l i s b : tree_at l i s -> count b (takeN (i + lenN (enc s) - 1) l) = count b (takeN i l) + (if b then tsize s else tsize s - 1).
Proof.
  intros (a & z & -> & <-). pose proof (len_enc2 s). rewrite takeN_app_exact. replace (lenN a + lenN (enc s) - 1) with (lenN a + (lenN (enc s) - 1)) by lia.
  rewrite takeN_app_ge by lia. replace (lenN a + (lenN (enc s) - 1) - lenN a) with (lenN (enc s) - 1) by lia. rewrite takeN_app_le by lia. rewrite count_app. f_equal.
  destruct (count_enc s) as [C1 C2]. destruct s as [cs]. rewrite len_enc. rewrite enc_node in C1, C2 |- *. rewrite app_assoc in *. replace (lenN (encs cs) + 2 - 1) with (lenN ([true] ++ encs cs)) by (rewrite lenN_app; cbn; lia).
  rewrite takeN_app_exact. rewrite count_app in C1, C2. destruct b; cbn [count Bool.eqb] in *; lia.
Qed.
Lemma tree_positions l i s b : tree_at l i s -> takeN (tsize s) (dropN (count b (takeN i l)) (positions b l)) = map (N.add i) (positions b (enc s)).
Proof.
  intros (a & z & -> & <-). rewrite takeN_app_exact, !positions_app, map_app. rewrite <- lenN_positions, dropN_app_exact.
  destruct (count_enc s) as [C1 C2]. assert (El : tsize s = lenN (map (N.add (lenN a)) (positions b (enc s)))) by (rewrite lenN_map, lenN_positions; destruct b; auto). rewrite El. apply takeN_app_exact.
Qed.
Lemma count_none b w : (forall k, k < lenN w -> nthN b w k = negb b) -> count b w = 0.
Proof.
  induction w as [|x w IH]; intros H; [reflexivity|]. pose proof (H 0 ltac:(rewrite lenN_cons; lia)) as H0. change (nthN b (x :: w) 0) with x in H0. subst x. cbn [count].
  rewrite IH; [destruct b; reflexivity|]. intros k Hk. specialize (H (k + 1) ltac:(rewrite lenN_cons; lia)). rewrite nthN_cons in H. destruct (N.eqb_spec (k + 1) 0); [lia|]. now rewrite N.add_sub in H.
Qed.

Lemma kid_at {l} i cs k c : tree_at l i (Node cs) -> nth_error cs k = Some c -> tree_at l (i + handle (Node cs) [k]) c.
Proof. intros H E. apply (tree_at_sub l i (Node cs) [k] c H). cbn [subtree children]. now rewrite E. Qed.
Lemma kid_pos cs k : (k < length cs)%nat -> handle (Node cs) [k] = 1 + lenN (encs (firstn k cs)).
Proof. intros H. pose proof (handle_snoc (Node cs) [] cs k eq_refl H) as E. cbn [app] in E. rewrite E. cbn [handle]. lia. Qed.
Lemma kids_end {l} i cs : tree_at l i (Node cs) -> nthN false l (i + 1 + lenN (encs cs)) = false.
Proof.
  intros H. destruct (tree_at_ex _ _ _ H) as (_ & _ & E & _). rewrite len_enc in E. now replace (i + (lenN (encs cs) + 2) - 1) with (i + 1 + lenN (encs cs)) in E by lia.
Qed.

Section Any.
Variables (lk : lookup) (B : N) (l : list bool) (bt : bptree).
Hypothesis Hlk : a_lookup lk.
Hypothesis Hb : built_from B l bt.
Hypothesis Hfit : (Z.of_N (lenN l) + 2 <= 9223372036854775807)%Z.
Lemma close_tree i s : tree_at l i s -> bp_close lk B bt i = Ok (Some (i + lenN (enc s) - 1)).
Proof using Hlk Hb Hfit.
  intros Hs. destruct (tree_at_ex _ _ _ Hs) as (_ & Hi & _). pose proof (len_enc2 s). destruct (any_close lk B l bt Hlk Hb Hfit i Hi) as (o & E & Ho). rewrite E. f_equal. apply Ho. exists s. split; [auto|lia].
Qed.
Lemma close_none i : nthN false l i = true -> (forall s, ~ tree_at l i s) -> bp_close lk B bt i = Ok None.
Proof using Hlk Hb Hfit.
  intros Hi Hn. destruct (any_close lk B l bt Hlk Hb Hfit i Hi) as (o & E & Ho). rewrite E. destruct o as [j|]; [|auto]. destruct (proj1 (Ho j) eq_refl) as (s & Hs & _). now apply Hn in Hs.
Qed.
Lemma short_fuel (w : list N) : lenN w <= lenN l -> (length w < bp_fuel bt)%nat.
Proof using Hb Hfit. intros H. unfold bp_fuel. rewrite (any_len B l bt Hb). unfold lenN in *. lia. Qed.
Lemma subtree_tree i s : tree_at l i s -> bp_subtree_list lk B bt i = Ok (map (fun q => i + handle s q) (preorder s)).
Proof using Hlk Hb Hfit.
  intros Hs. destruct (tree_at_ex _ _ _ Hs) as (L & Hi & _). unfold bp_subtree_list. rewrite (any_assert B l bt Hb) by auto. cbn [bind]. rewrite !(np_rank1 B l bt Hb). cbn [bind]. rewrite (close_tree i s Hs). cbn [bind]. rewrite (np_rank1 B l bt Hb). cbn [bind].
  unfold rank_spec. rewrite (take_close l i s true Hs), sub_ok by lia. cbn [bind]. destruct (built_good _ _ _ Hb) as (bv & G & Hl & Hlb).
  destruct (sel_new_ok false bv (bp_vec bt) (bg_wf _ _ _ G) (bg_rs _ _ _ G)) as (it & E1 & HR). rewrite E1. cbn [bind]. unfold posz in HR. cbn [negb] in HR. rewrite Hl in HR.
  replace (count true (takeN i l) + tsize s - count true (takeN i l)) with (tsize s) by lia.
  assert (El : map (fun q => i + handle s q) (preorder s) = map (N.add i) (positions true (enc s))) by (rewrite <- preorder_handles, map_map; reflexivity).
  rewrite El. eapply (collect_ok _ _ (take_step false bv (bp_vec bt) (bg_wf _ _ _ G) (bg_rs _ _ _ G))).
  - eexists _, (positions true l). cbn [fst snd]. split; [exact HR|]. split; [reflexivity|]. symmetry. now apply tree_positions.
  - apply short_fuel. rewrite lenN_map, lenN_positions. pose proof (count_le true (enc s)). lia.
Qed.
Lemma subtree_open i : nthN false l i = true -> (forall s, ~ tree_at l i s) -> bp_subtree_list lk B bt i = Ok [].
Proof using Hlk Hb Hfit.
  intros Hi Hn. unfold bp_subtree_list. rewrite (any_assert B l bt Hb) by auto. cbn [bind]. rewrite !(np_rank1 B l bt Hb). cbn [bind]. rewrite (close_none i Hi Hn). cbn [bind]. rewrite (np_rank1 B l bt Hb). cbn [bind].
  rewrite sub_ok by lia. cbn [bind]. rewrite N.sub_diag. destruct (built_good _ _ _ Hb) as (bv & G & Hl & Hlb).
  destruct (sel_new_ok false bv (bp_vec bt) (bg_wf _ _ _ G) (bg_rs _ _ _ G)) as (it & E1 & HR). rewrite E1. reflexivity.
Qed.
Lemma kids_fuel i cs : tree_at l i (Node cs) -> (length cs < bp_fuel bt)%nat.
Proof using Hb Hfit.
  intros H. destruct (tree_at_ex _ _ _ H) as (L & _). rewrite len_enc in L. unfold bp_fuel. rewrite (any_len B l bt Hb).
  assert (Hc : N.of_nat (length cs) <= lenN (encs cs)). { clear. induction cs as [|c cs IH]; [cbn; lia|]. rewrite encs_cons, lenN_app. pose proof (len_enc2 c). cbn [length]. lia. }
  unfold lenN in *. lia.
Qed.
Lemma first_tree i cs : tree_at l i (Node cs) -> bp_first_child bt i = Ok (match cs with [] => None | _ => Some (i + handle (Node cs) [0%nat]) end).
Proof using Hlk Hb Hfit.
  intros H. destruct (tree_at_ex _ _ _ H) as (L & Hi & _). destruct (C133_forward lk B l bt i i Hlk Hb Hfit Hi Hi) as (_ & _ & _ & E & _). rewrite E. destruct cs as [|c cs].
  - pose proof (kids_end i [] H) as K. change (lenN (encs [])) with 0 in K. rewrite N.add_0_r in K. now rewrite K.
  - pose proof (kid_at i (c :: cs) 0 c H eq_refl) as K. rewrite kid_pos in * by (cbn; lia). change (lenN (encs (firstn 0 (c :: cs)))) with 0 in *. rewrite N.add_0_r in *. destruct (tree_at_ex _ _ _ K) as (_ & K1 & _). now rewrite K1.
Qed.
Lemma next_tree i cs k c : tree_at l i (Node cs) -> nth_error cs k = Some c ->
  bp_next_sibling lk B bt (i + handle (Node cs) [k]) = Ok (if (S k <? length cs)%nat then Some (i + handle (Node cs) [S k]) else None).
Proof using Hlk Hb Hfit.
  intros H E. pose proof (kid_at i cs k c H E) as K. destruct (tree_at_ex _ _ _ K) as (_ & K1 & _). destruct (any_next lk B l bt Hlk Hb Hfit _ K1) as (o & Eo & Ho). rewrite Eo. f_equal.
  assert (Hk : (k < length cs)%nat) by (apply nth_error_Some; congruence). pose proof (firstn_S_len cs k c E) as F. destruct (Nat.ltb_spec (S k) (length cs)) as [Lt|Ge].
  - apply Ho. exists c. split; [auto|]. rewrite !kid_pos by auto. split; [lia|]. destruct (nth_error cs (S k)) as [d|] eqn:Ed; [|apply nth_error_None in Ed; lia].
    pose proof (kid_at i cs (S k) d H Ed) as K2. rewrite kid_pos in K2 by auto. now destruct (tree_at_ex _ _ _ K2) as (_ & K3 & _).
  - destruct o as [s|]; [|auto]. exfalso. destruct (proj1 (Ho s) eq_refl) as (t & Ht & -> & Hop). rewrite <- (tree_at_fun _ _ _ _ K Ht) in Hop. rewrite kid_pos in Hop by auto. rewrite firstn_all2 in F by lia.
    pose proof (kids_end i cs H) as Ke. replace (i + 1 + lenN (encs cs)) with (i + (1 + lenN (encs (firstn k cs))) + lenN (enc c)) in Ke by lia. congruence.
Qed.
Lemma children_tree i cs : tree_at l i (Node cs) -> bp_children_list lk B true bt i = Ok (map (fun k => i + handle (Node cs) [k]) (seq 0 (length cs))).
Proof using Hlk Hb Hfit.
  intros H. destruct (tree_at_ex _ _ _ H) as (_ & Hi & _). unfold bp_children_list. rewrite (any_assert B l bt Hb) by auto. cbn [bind]. rewrite (first_tree i cs H). cbn [bind].
  apply (collect_ok (fun cur m => exists k, (k <= length cs)%nat /\ cur = (if (k <? length cs)%nat then Some (i + handle (Node cs) [k]) else None) /\ m = map (fun k => i + handle (Node cs) [k]) (seq k (length cs - k)))).
  - intros cur m (k & Hk & -> & ->). destruct (Nat.ltb_spec k (length cs)) as [Hl|Hl].
    + destruct (nth_error cs k) as [c|] eqn:Ec; [|apply nth_error_None in Ec; lia]. cbn [bp_children_next]. rewrite (next_tree i cs k c H Ec). cbn [bind]. eexists. replace (length cs - k)%nat with (S (length cs - S k)) by lia. cbn [seq map]. split; [reflexivity|].
      exists (S k). split; [lia|]. split; reflexivity.
    + cbn [bp_children_next]. assert (k = length cs) by lia. subst k. rewrite Nat.sub_diag. exists None. split; [reflexivity|]. exists (length cs). split; [lia|]. rewrite Nat.ltb_irrefl, Nat.sub_diag. split; reflexivity.
  - exists 0%nat. split; [lia|]. split; [destruct cs; reflexivity|]. now rewrite Nat.sub_0_r.
  - rewrite map_length, seq_length. now apply kids_fuel with i.
Qed.
Lemma rev_children_open i : nthN false l i = true -> (forall s, ~ tree_at l i s) -> bp_children_list lk B false bt i = Ok [].
Proof using Hlk Hb Hfit.
  intros Hi Hn. unfold bp_children_list, bp_last_child. rewrite (any_assert B l bt Hb) by auto. cbn [bind]. rewrite (any_open_get B l bt Hb). cbn [bind].
  assert (E : forall o : option N, match o with None => Ok None | Some b => if b =? 1 then let* c := bp_close lk B bt i in match c with None => Ok None | Some i0 => let* i1 := sub i0 1 in bp_open lk B bt i1 end else Ok None end = Ok None).
  { intros [b|]; [|auto]. destruct (b =? 1); [|auto]. now rewrite (close_none i Hi Hn). }
  rewrite E. reflexivity.
Qed.

Hypothesis Hal : aligned lk B.
Lemma open_tree i s : tree_at l i s -> bp_open_item lk B bt (i + lenN (enc s) - 1) = Ok i.
Proof using Hlk Hb Hfit Hal.
  intros H. destruct (tree_at_ex _ _ _ H) as (L & _ & C & _). pose proof (len_enc2 s). unfold bp_open_item. destruct (any_open lk B l bt Hlk Hal Hb Hfit (i + lenN (enc s) - 1) ltac:(lia) C) as (o & E & Ho). rewrite E. cbn [bind].
  rewrite (proj2 (Ho i)); [reflexivity|]. exists s. split; [auto|lia].
Qed.
Definition opener' (x : N) : N := match bp_open_item lk B bt x with Ok y => y | _ => 0 end.
Lemma subtree_post_tree i s : tree_at l i s -> bp_subtree_post_list lk B bt i = Ok (map (fun q => i + handle s q) (postorder s)).
Proof using Hlk Hb Hfit Hal.
  intros Hs. destruct (tree_at_ex _ _ _ Hs) as (L & Hi & _). unfold bp_subtree_post_list. rewrite (any_assert B l bt Hb) by auto. cbn [bind]. rewrite !(np_rank0 B l bt Hb). cbn [bind]. rewrite (close_tree i s Hs). cbn [bind]. rewrite (np_rank0 B l bt Hb). cbn [bind].
  assert (Hs1 : 1 <= tsize s) by (destruct s; cbn [tsize]; lia).
  unfold rank_spec. rewrite (take_close l i s false Hs), sub_ok by lia. cbn [bind]. destruct (built_good _ _ _ Hb) as (bv & G & Hl & Hlb).
  destruct (sel_new_ok true bv (bp_vec bt) (bg_wf _ _ _ G) (bg_rs _ _ _ G)) as (it & E1 & HR). rewrite E1. cbn [bind]. unfold posz in HR. cbn [negb] in HR. rewrite Hl in HR.
  replace (count false (takeN i l) + (tsize s - 1) + 1 - count false (takeN i l)) with (tsize s) by lia.
  assert (Hcl : map (N.add i) (positions false (enc s)) = map (fun q => i + closing s q) (postorder s)) by (rewrite <- postorder_closings, map_map; reflexivity).
  assert (Hop : forall q, In q (postorder s) -> bp_open_item lk B bt (i + closing s q) = Ok (i + handle s q)).
  { intros q Hin. apply in_postorder in Hin. unfold closing. destruct (subtree s q) as [r|] eqn:Er; [|congruence]. pose proof (len_enc2 r). replace (i + (handle s q + lenN (enc r) - 1)) with (i + handle s q + lenN (enc r) - 1) by lia. apply open_tree. eapply tree_at_sub; eauto. }
  eapply (collect_ok _ _ (map_step _ _ (bp_open_item lk B bt) opener' (take_step true bv (bp_vec bt) (bg_wf _ _ _ G) (bg_rs _ _ _ G)))).
  - exists (map (fun q => i + closing s q) (postorder s)). split; [|split].
    + eexists _, (positions false l). cbn [fst snd]. split; [exact HR|]. split; [reflexivity|]. rewrite <- Hcl. symmetry. now apply tree_positions.
    + intros x Hx. apply in_map_iff in Hx as (q & <- & Hq). unfold opener'. now rewrite (Hop q Hq).
    + rewrite map_map. apply map_ext_in. intros q Hq. unfold opener'. now rewrite (Hop q Hq).
  - rewrite map_length, <- (map_length (fun q => i + closing s q)), <- Hcl. apply short_fuel. rewrite lenN_map, lenN_positions. pose proof (count_le false (enc s)). lia.
Qed.
Lemma post_open i w : nthN false l i = true -> (forall s, ~ tree_at l i s) -> takeN 1 (dropN (count false (takeN i l)) (positions false l)) = w ->
  (forall x, In x w -> bp_open_item lk B bt x = Ok (opener' x)) -> bp_subtree_post_list lk B bt i = Ok (map opener' w).
Proof using Hlk Hb Hfit.
  intros Hi Hn Ew Hw. unfold bp_subtree_post_list. rewrite (any_assert B l bt Hb) by auto. cbn [bind]. rewrite !(np_rank0 B l bt Hb). cbn [bind]. rewrite (close_none i Hi Hn). cbn [bind]. rewrite (np_rank0 B l bt Hb). cbn [bind].
  rewrite sub_ok by lia. cbn [bind]. destruct (built_good _ _ _ Hb) as (bv & G & Hl & Hlb).
  destruct (sel_new_ok true bv (bp_vec bt) (bg_wf _ _ _ G) (bg_rs _ _ _ G)) as (it & E1 & HR). rewrite E1. cbn [bind]. unfold posz in HR. cbn [negb] in HR. rewrite Hl in HR.
  replace (rank_spec false l i + 1 - rank_spec false l i) with 1 by lia.
  eapply (collect_ok _ _ (map_step _ _ (bp_open_item lk B bt) opener' (take_step true bv (bp_vec bt) (bg_wf _ _ _ G) (bg_rs _ _ _ G)))).
  - exists w. split; [|split; [auto|reflexivity]]. eexists _, (positions false l). cbn [fst snd]. split; [exact HR|]. split; [reflexivity|]. now symmetry.
  - rewrite map_length. apply short_fuel. rewrite <- Ew, lenN_takeN, lenN_dropN, lenN_positions. pose proof (count_le false l). lia.
Qed.
Lemma last_tree i cs : tree_at l i (Node cs) -> bp_last_child lk B bt i = Ok (match cs with [] => None | _ => Some (i + handle (Node cs) [(length cs - 1)%nat]) end).
Proof using Hlk Hb Hfit Hal.
  intros H. destruct (tree_at_ex _ _ _ H) as (_ & Hi & _). destruct (C133_backward lk B l bt i Hlk Hal Hb Hfit Hi) as (_ & _ & (o & E & Ho) & _). rewrite E. f_equal. destruct cs as [|c0 cs0].
  - destruct o as [x|]; [|auto]. exfalso. destruct (proj1 (Ho x) eq_refl) as (ds & s & Hs & _). pose proof (tree_at_fun _ _ _ _ H Hs) as F. rewrite !len_enc, encs_app, lenN_app, encs_cons, lenN_app in F. pose proof (len_enc2 s). change (lenN (encs [])) with 0 in F. lia.
  - destruct (exists_last (l := c0 :: cs0) ltac:(discriminate)) as (ds & s & Es). rewrite Es in *. apply Ho. exists ds, s. split; [auto|]. rewrite app_length. cbn [length]. rewrite kid_pos by (rewrite app_length; cbn [length]; lia).
    replace (length ds + 1 - 1)%nat with (length ds) by lia. rewrite firstn_mid. change (flat_map enc ds) with (encs ds). lia.
Qed.
Lemma prev_tree i cs k c : tree_at l i (Node cs) -> nth_error cs k = Some c ->
  bp_previous_sibling lk B bt (i + handle (Node cs) [k]) = Ok (match k with O => None | S k => Some (i + handle (Node cs) [k]) end).
Proof using Hlk Hb Hfit Hal.
  intros H E. pose proof (kid_at i cs k c H E) as K. destruct (tree_at_ex _ _ _ K) as (_ & K1 & _). destruct (C133_backward lk B l bt _ Hlk Hal Hb Hfit K1) as (_ & (o & Eo & Ho) & _). rewrite Eo. f_equal.
  assert (Hk : (k < length cs)%nat) by (apply nth_error_Some; congruence). destruct k as [|k].
  - destruct o as [s|]; [|auto]. exfalso. destruct (proj1 (Ho s) eq_refl) as (t & Ht & Et). rewrite kid_pos in Et by auto. change (lenN (encs (firstn 0 cs))) with 0 in Et. destruct (tree_at_ex _ _ _ Ht) as (_ & _ & C & _). destruct (tree_at_ex _ _ _ H) as (_ & Hi & _). replace (s + lenN (enc t) - 1) with i in C by lia. congruence.
  - apply Ho. destruct (nth_error cs k) as [d|] eqn:Ed; [|apply nth_error_None in Ed; lia]. exists d. split; [now apply kid_at|]. rewrite !kid_pos by lia. rewrite (firstn_S_len cs k d Ed). lia.
Qed.
Lemma rev_children_tree i cs : tree_at l i (Node cs) -> bp_children_list lk B false bt i = Ok (map (fun k => i + handle (Node cs) [k]) (rev (seq 0 (length cs)))).
Proof using Hlk Hb Hfit Hal.
  intros H. destruct (tree_at_ex _ _ _ H) as (_ & Hi & _). unfold bp_children_list. rewrite (any_assert B l bt Hb) by auto. cbn [bind]. rewrite (last_tree i cs H). cbn [bind].
  apply (collect_ok (fun cur m => exists k, (k <= length cs)%nat /\ cur = (match k with O => None | S k => Some (i + handle (Node cs) [k]) end) /\ m = map (fun k => i + handle (Node cs) [k]) (rev (seq 0 k)))).
  - intros cur m (k & Hk & -> & ->). destruct k as [|k]; cbn [bp_children_next].
    + exists None. split; [reflexivity|]. exists 0%nat. split; [lia|]. split; reflexivity.
    + destruct (nth_error cs k) as [c|] eqn:Ec; [|apply nth_error_None in Ec; lia]. rewrite (prev_tree i cs k c H Ec). cbn [bind]. eexists. rewrite seq_S, rev_app_distr. cbn [rev app map plus]. split; [reflexivity|]. exists k. split; [lia|]. split; reflexivity.
  - exists (length cs). split; [lia|]. split; [|reflexivity]. destruct cs as [|c cs]; [reflexivity|]. cbn [length]. rewrite Nat.sub_succ, Nat.sub_0_r. reflexivity.
  - rewrite map_length, rev_length, seq_length. now apply kids_fuel with i.
Qed.
End Any.

(** The node at [node] has a closing parenthesis: its subtree [s] is the piece up to there, whatever is
    around it, and the iterators yield what they would for [s] alone, moved to [node]. *)
Theorem C136_closed lk B l bt node s :
  a_lookup lk -> built_from B l bt -> (Z.of_N (lenN l) + 2 <= 9223372036854775807)%Z -> tree_at l node s ->
  bp_subtree_list lk B bt node = Ok (map (fun q => node + handle s q) (preorder s)) /\
  bp_children_list lk B true bt node = Ok (map (fun k => node + handle s [k]) (seq 0 (length (children s)))) /\
  (aligned lk B ->
   bp_subtree_post_list lk B bt node = Ok (map (fun q => node + handle s q) (postorder s)) /\
   bp_children_list lk B false bt node = Ok (map (fun k => node + handle s [k]) (rev (seq 0 (length (children s)))))).
Proof.
  intros Hlk Hb Hfit H. split; [now apply subtree_tree with l|]. split; [destruct s; now apply children_tree with l|]. intros Hal. split; [now apply subtree_post_tree with l|destruct s; now apply rev_children_tree with l].
Qed.
(** The node at [node] has no closing parenthesis: the subtree and the reversed children are empty,
    although [children] (C133) may yield nodes; the post-order iterator yields one node, the first
    leaf at or behind [node], if there is a closing parenthesis behind it. *)
Theorem C136_unclosed lk B l bt node :
  a_lookup lk -> built_from B l bt -> (Z.of_N (lenN l) + 2 <= 9223372036854775807)%Z -> nthN false l node = true -> (forall s, ~ tree_at l node s) ->
  bp_subtree_list lk B bt node = Ok [] /\ bp_children_list lk B false bt node = Ok [] /\
  ((forall k, node < k -> k < lenN l -> nthN false l k = true) -> bp_subtree_post_list lk B bt node = Ok []) /\
  (forall j, node < j -> j < lenN l -> nthN false l j = false -> (forall k, node < k -> k < j -> nthN false l k = true) -> aligned lk B ->
    bp_subtree_post_list lk B bt node = Ok [j - 1]).
Proof.
  intros Hlk Hb Hfit Hn Hno. pose proof (any_in l node Hn) as Hin. split; [now apply subtree_open with l|]. split; [now apply rev_children_open with l|].
  assert (Ep : dropN (count false (takeN node l)) (positions false l) = map (N.add node) (positions false (dropN node l))).
  { rewrite <- (takeN_dropN node l) at 2. rewrite positions_app, lenN_takeN. rewrite <- lenN_positions, dropN_app_exact. f_equal. f_equal. lia. }
  split.
  - intros Hall. assert (E0 : positions false (dropN node l) = []).
    { pose proof (lenN_positions false (dropN node l)) as E. rewrite count_none in E; [revert E; generalize (positions false (dropN node l)); intros [|y w]; [auto|rewrite lenN_cons; lia]|]. intros k Hk. rewrite lenN_dropN in Hk. rewrite nthN_dropN. destruct (N.eq_dec k 0) as [->|]; [now rewrite N.add_0_r|]. apply Hall; lia. }
    rewrite (post_open lk B l bt Hlk Hb Hfit node [] Hn Hno); [reflexivity| |intros x []]. now rewrite Ep, E0.
  - intros j J1 J2 J3 J4 Hal. assert (Et : tree_at l (j - 1) (Node [])).
    { exists (takeN (j - 1) l), (dropN (j + 1) l). change (enc (Node [])) with [true; false]. split; [|rewrite lenN_takeN; lia]. rewrite (cut3 l (j - 1) 2) at 1 by lia. f_equal. replace (j - 1 + 2) with (j + 1) by lia. f_equal.
      unfold sliceN. rewrite (dropN_nth false) by lia. replace (j - 1 + 1) with j by lia. rewrite (dropN_nth false) by lia. rewrite J3. replace (nthN false l (j - 1)) with true; [reflexivity|]. symmetry. destruct (N.eq_dec (j - 1) node) as [->|]; [auto|]. apply J4; lia. }
    pose proof (open_tree lk B l bt Hlk Hb Hfit Hal (j - 1) (Node []) Et) as Eo. change (lenN (enc (Node []))) with 2 in Eo. replace (j - 1 + 2 - 1) with j in Eo by lia.
    rewrite (post_open lk B l bt Hlk Hb Hfit node [j] Hn Hno); [cbn [map]; unfold opener'; now rewrite Eo| |].
    + rewrite Ep. assert (E0 : getN (positions false (dropN node l)) 0 = Some (j - node)).
      { apply getN_positions. rewrite lenN_dropN, nthN_dropN. split; [lia|]. replace (node + (j - node)) with j by lia. cbn [negb]. split; [now rewrite (nthN_default true false) by auto|].
        apply count_none. intros k Hk. rewrite lenN_takeN, lenN_dropN in Hk. rewrite nthN_takeN, nthN_dropN by lia. destruct (N.eq_dec k 0) as [->|]; [now rewrite N.add_0_r|]. apply J4; lia. }
      destruct (positions false (dropN node l)) as [|x w]; [discriminate|]. injection E0 as ->. cbn [map]. change (takeN 1 (?a :: ?b)) with [a]. f_equal. lia.
    + intros x [<-|[]]. unfold opener'. now rewrite Eo.
Qed.
(** ")(()())(()": the node at 1 is closed and has the children 2 and 4, the node at 7 is not closed; the
    first leaf behind 7 is 8. *)
Example C136_ex : let l := [false; true; true; false; true; false; false; true; true; false] in
  tree_at l 1 (Node [Node []; Node []]) /\ nthN false l 7 = true /\ (forall s, ~ tree_at l 7 s) /\ aligned lookup8 4 /\
  (let* t := mk 4 l in let* a := bp_subtree_list lookup8 4 t 1 in let* b := bp_subtree_post_list lookup8 4 t 1 in let* c := bp_children_list lookup8 4 true t 1 in let* d := bp_children_list lookup8 4 false t 1 in Ok (a, b, c, d))
    = Ok ([1; 2; 4], [2; 4; 1], [2; 4], [4; 2]) /\
  (let* t := mk 4 l in let* a := bp_subtree_list lookup8 4 t 7 in let* b := bp_subtree_post_list lookup8 4 t 7 in let* c := bp_children_list lookup8 4 true t 7 in let* d := bp_children_list lookup8 4 false t 7 in Ok (a, b, c, d))
    = Ok ([], [8], [8], []).
Proof.
  intros l. split; [exists [false], [true; true; false]; auto|]. split; [reflexivity|]. split; [|split; [right; reflexivity|split; vm_compute; reflexivity]].
  intros s H. destruct (tree_at_ex _ _ _ H) as (L & _ & _ & E & _). pose proof (len_enc2 s) as L2. rewrite enc_len_size in *. change (lenN l) with 10 in L.
  assert (H' : tsize s = 1) by lia. rewrite H' in E. discriminate.
Qed.
