(** * Facts about the encoding of trees. *)
From Verif Require Import Base Spec BaseFacts WordFacts BpModel BpExcess BpTreeSpec.

Lemma tree_ind' (P : tree -> Prop) : (forall cs, Forall P cs -> P (Node cs)) -> forall t, P t.
Proof. intros H. fix IH 1. intros [cs]. apply H. induction cs as [|c cs IHc]; constructor; [apply IH|exact IHc]. Qed.
Definition encs (cs : list tree) : list bool := flat_map enc cs.

(** ** Excess of concatenations *)
Lemma ex_app_le l m p : (p <= lenN l)%N -> excess_before (l ++ m) p = excess_before l p.
Proof. intros H. unfold excess_before. now rewrite takeN_app_le. Qed.
Lemma ex_app_ge l m k : excess_before (l ++ m) (lenN l + k) = (excess_before l (lenN l) + excess_before m k)%Z.
Proof.
  unfold excess_before. rewrite takeN_app_ge by lia. replace (lenN l + k - lenN l) with k by lia. rewrite (takeN_all (lenN l)) by lia. rewrite !count_app. lia.
Qed.

(** ** Balance *)
Lemma encs_cons c cs : encs (c :: cs) = enc c ++ encs cs.
Proof. reflexivity. Qed.
Lemma encs_app a b : encs (a ++ b) = encs a ++ encs b.
Proof. unfold encs. apply flat_map_app. Qed.
Lemma enc_node cs : enc (Node cs) = [true] ++ encs cs ++ [false].
Proof. reflexivity. Qed.
Lemma len_enc cs : lenN (enc (Node cs)) = lenN (encs cs) + 2.
Proof. rewrite enc_node, !lenN_app. cbn. lia. Qed.
Lemma len_enc2 t : 2 <= lenN (enc t).
Proof. destruct t as [cs]. rewrite len_enc. lia. Qed.
Lemma enc_balanced t : excess_before (enc t) (lenN (enc t)) = 0%Z /\ forall k, 0 < k -> k < lenN (enc t) -> (1 <= excess_before (enc t) k)%Z.
Proof.
  induction t as [cs IH] using tree_ind'.
  assert (Hf : excess_before (encs cs) (lenN (encs cs)) = 0%Z /\ forall k, k <= lenN (encs cs) -> (0 <= excess_before (encs cs) k)%Z).
  { induction IH as [|c cs [Hc1 Hc2] _ [IH1 IH2]]; [split; [reflexivity|intros k Hk; change (lenN (encs [])) with 0 in Hk; replace k with 0 by lia; reflexivity]|].
    rewrite encs_cons, lenN_app. split; [rewrite ex_app_ge; lia|]. intros k Hk. destruct (N.leb_spec k (lenN (enc c))).
    - rewrite ex_app_le by auto. destruct (N.eq_dec k 0) as [->|]; [rewrite ex_0; lia|]. destruct (N.eq_dec k (lenN (enc c))) as [->|]; [lia|]. specialize (Hc2 k). lia.
    - replace k with (lenN (enc c) + (k - lenN (enc c))) by lia. rewrite ex_app_ge. specialize (IH2 (k - lenN (enc c))). lia. }
  destruct Hf as [Hf1 Hf2]. rewrite len_enc.
  assert (H1 : forall k, k <= lenN (encs cs) -> excess_before (enc (Node cs)) (1 + k) = (1 + excess_before (encs cs) k)%Z).
  { intros k Hk. rewrite enc_node. change 1 with (lenN [true]). rewrite ex_app_ge. rewrite ex_app_le by auto. reflexivity. }
  assert (H2 : excess_before (enc (Node cs)) (1 + (lenN (encs cs) + 1)) = 0%Z).
  { rewrite enc_node. change 1 with (lenN [true]) at 1. rewrite ex_app_ge, ex_app_ge. rewrite Hf1. reflexivity. }
  split.
  - replace (lenN (encs cs) + 2) with (1 + (lenN (encs cs) + 1)) by lia. exact H2.
  - intros k K1 K2. replace k with (1 + (k - 1)) by lia. rewrite H1 by lia. specialize (Hf2 (k - 1)). lia.
Qed.
Lemma encs_balanced cs : excess_before (encs cs) (lenN (encs cs)) = 0%Z.
Proof.
  induction cs as [|c cs IH]; [reflexivity|]. rewrite encs_cons, lenN_app, ex_app_ge. destruct (enc_balanced c) as [-> _]. lia.
Qed.

(** ** Position of a node's encoding *)
Lemma forest_split (cs : list tree) i c : nth_error cs i = Some c -> encs cs = encs (firstn i cs) ++ enc c ++ encs (skipn (S i) cs).
Proof.
  intros H. rewrite <- (firstn_skipn i cs) at 1. rewrite encs_app. f_equal. revert cs H. induction i as [|i IH]; intros [|x cs] H; try discriminate; cbn in H.
  - injection H as ->. reflexivity.
  - cbn [skipn]. apply IH. exact H.
Qed.
(** The encoding of a node sits at its handle. *)
Lemma node_split t p s : subtree t p = Some s ->
  exists pre post, enc t = pre ++ enc s ++ post /\ lenN pre = handle t p /\ excess_before pre (lenN pre) = Z.of_N (lenN p) /\
    (p <> [] -> 1 <= lenN post /\ 1 <= lenN pre).
Proof.
  revert t. induction p as [|i p IH]; intros t H.
  - injection H as <-. exists [], []. rewrite app_nil_r. repeat split; try reflexivity; congruence.
  - cbn [subtree handle] in *. destruct t as [cs]. cbn [children] in *. destruct (nth_error cs i) as [c|] eqn:Ec; [|discriminate].
    destruct (IH c H) as (pre & post & E1 & E2 & E3 & _). fold (encs (firstn i cs)).
    exists ([true] ++ encs (firstn i cs) ++ pre), (post ++ encs (skipn (S i) cs) ++ [false]). repeat split.
    + rewrite enc_node, (forest_split cs i c Ec), E1. rewrite <- !app_assoc. reflexivity.
    + rewrite !lenN_app, E2. cbn. lia.
    + rewrite !lenN_app. rewrite ex_app_ge, ex_app_ge, E3, encs_balanced. rewrite (lenN_cons i p). change (excess_before [true] (lenN [true])) with 1%Z. lia.
    + rewrite !lenN_app. cbn. lia.
    + rewrite !lenN_app. cbn. lia.
Qed.

Lemma handle_snoc t p cs i : subtree t p = Some (Node cs) -> (i < length cs)%nat -> handle t (p ++ [i]) = handle t p + 1 + lenN (encs (firstn i cs)).
Proof.
  revert t. induction p as [|j p IH]; intros t H Hi.
  - injection H as ->. cbn [app handle children]. fold (encs (firstn i cs)). destruct (nth_error cs i); lia.
  - cbn [app handle subtree] in *. destruct (nth_error (children t) j); [|discriminate]. rewrite (IH t0) by auto. lia.
Qed.
Lemma subtree_app t p q : subtree t (p ++ q) = match subtree t p with Some s => subtree s q | None => None end.
Proof. revert t. induction p as [|i p IH]; intros t; [reflexivity|]. cbn [app subtree]. destruct (nth_error (children t) i); auto. Qed.
Lemma subtree_snoc t p i : subtree t (p ++ [i]) = match subtree t p with Some s => nth_error (children s) i | None => None end.
Proof. rewrite subtree_app. destruct (subtree t p); auto. cbn. now destruct (nth_error (children t0) i). Qed.
Lemma handle_app t p q s : subtree t p = Some s -> handle t (p ++ q) = handle t p + handle s q.
Proof.
  revert t. induction p as [|i p IH]; intros t H; [injection H as ->; reflexivity|]. cbn [app handle subtree] in *.
  destruct (nth_error (children t) i) as [c|]; [|discriminate]. rewrite (IH c H). lia.
Qed.

(** What the encoding looks like around a node. *)
Record at_node (t : tree) (p : path) (s : tree) : Prop := {
  an_in : handle t p + lenN (enc s) <= lenN (enc t);
  an_ex : forall k, k <= lenN (enc s) -> excess_before (enc t) (handle t p + k) = (Z.of_N (lenN p) + excess_before (enc s) k)%Z;
  an_bit : forall k, k < lenN (enc s) -> nthN false (enc t) (handle t p + k) = nthN false (enc s) k;
  an_proper : p <> [] -> 1 <= handle t p /\ handle t p + lenN (enc s) < lenN (enc t) }.
Lemma at_node_ok t p s : subtree t p = Some s -> at_node t p s.
Proof.
  intros H. destruct (node_split t p s H) as (pre & post & E & Hl & He & Hp). split.
  - rewrite E, !lenN_app. lia.
  - intros k Hk. rewrite E, <- Hl, ex_app_ge, ex_app_le by auto. lia.
  - intros k Hk. rewrite E, <- Hl, nthN_app. destruct (N.ltb_spec (lenN pre + k) (lenN pre)); [lia|]. replace (lenN pre + k - lenN pre) with k by lia.
    rewrite nthN_app. destruct (N.ltb_spec k (lenN (enc s))); [reflexivity|lia].
  - intros Hne. specialize (Hp Hne). rewrite E, !lenN_app. lia.
Qed.
Lemma enc_nonneg t k : k <= lenN (enc t) -> (0 <= excess_before (enc t) k)%Z.
Proof.
  intros Hk. destruct (enc_balanced t) as [E0 E1]. destruct (N.eq_dec k 0) as [->|]; [rewrite ex_0; lia|]. destruct (N.eq_dec k (lenN (enc t))) as [->|]; [lia|]. specialize (E1 k). lia.
Qed.
Lemma enc_first t : nthN false (enc t) 0 = true.
Proof. destruct t. reflexivity. Qed.
Lemma enc_last t : nthN false (enc t) (lenN (enc t) - 1) = false.
Proof.
  destruct t as [cs]. rewrite len_enc, enc_node, app_assoc, nthN_app, lenN_app. change (lenN [true]) with 1. destruct (N.ltb_spec (lenN (encs cs) + 2 - 1) (1 + lenN (encs cs))); [lia|].
  replace (lenN (encs cs) + 2 - 1 - (1 + lenN (encs cs))) with 0 by lia. reflexivity.
Qed.
Lemma enc_second cs : nthN false (enc (Node cs)) 1 = match cs with [] => false | _ => true end.
Proof. destruct cs as [|[ds] cs]; reflexivity. Qed.
Lemma enc_ex1 t : excess_before (enc t) 1 = 1%Z.
Proof. destruct t as [cs]. reflexivity. Qed.
Lemma enc_ex_last t : excess_before (enc t) (lenN (enc t) - 1) = 1%Z.
Proof.
  pose proof (len_enc2 t). destruct (enc_balanced t) as [E0 _]. pose proof (enc_last t) as El.
  pose proof (ex_succ (enc t) (lenN (enc t) - 1) ltac:(lia)) as Hs. replace (lenN (enc t) - 1 + 1) with (lenN (enc t)) in Hs by lia. rewrite El in Hs. unfold paren in Hs. lia.
Qed.

(** ** Pre-order and post-order *)
Lemma positions_from_shift b i k l : positions_from b (i + k) l = map (N.add i) (positions_from b k l).
Proof.
  revert k. induction l as [|x l IH]; intros k; [reflexivity|]. cbn [positions_from]. rewrite <- N.add_assoc, IH. now destruct (Bool.eqb x b).
Qed.
Lemma positions_app b l m : positions b (l ++ m) = positions b l ++ map (N.add (lenN l)) (positions b m).
Proof. unfold positions. rewrite positions_from_app, N.add_0_l. rewrite <- (N.add_0_r (lenN l)) at 1. now rewrite positions_from_shift. Qed.
Lemma nth_error_mid {A} (a : list A) x b : nth_error (a ++ x :: b) (length a) = Some x.
Proof. rewrite nth_error_app2 by lia. now rewrite Nat.sub_diag. Qed.
Lemma firstn_mid {A} (a b : list A) : firstn (length a) (a ++ b) = a.
Proof. rewrite firstn_app, Nat.sub_diag, firstn_all. apply app_nil_r. Qed.

Lemma preorder_handles t : map (handle t) (preorder t) = positions true (enc t).
Proof.
  induction t as [cs IH] using tree_ind'. cbn [preorder map]. rewrite enc_node, positions_app, positions_app. change (positions true [true]) with [0]. change (positions true [false]) with (@nil N).
  cbn [app map]. rewrite app_nil_r. f_equal. change (lenN [true]) with 1.
  enough (G : forall ds, map (handle (Node (ds ++ cs))) (forest_paths preorder (length ds) cs) = map (N.add (1 + lenN (encs ds))) (positions true (encs cs))) by (apply (G [])).
  induction IH as [|c cs Hc _ IHc]; intros ds; [reflexivity|]. cbn [forest_paths]. fold (forest_paths preorder). rewrite map_app, encs_cons, positions_app, map_app. f_equal.
  - rewrite <- Hc. rewrite !map_map. apply map_ext. intros p. cbn [handle children]. rewrite nth_error_mid, firstn_mid. reflexivity.
  - specialize (IHc (ds ++ [c])). rewrite app_length in IHc. cbn [length] in IHc. rewrite Nat.add_1_r, <- app_assoc in IHc. cbn [app] in IHc. etransitivity; [exact IHc|]. rewrite map_map.
    apply map_ext. intros x. rewrite encs_app, lenN_app. cbn [encs flat_map]. rewrite app_nil_r. lia.
Qed.

Lemma in_forest f i cs p : In p (forest_paths f i cs) <-> exists k c q, nth_error cs k = Some c /\ p = (i + k)%nat :: q /\ In q (f c).
Proof.
  revert i. induction cs as [|c cs IH]; intros i; cbn [forest_paths].
  - split; [easy|]. intros ([|k] & c & q & H & _); discriminate.
  - fold (forest_paths f). rewrite in_app_iff, in_map_iff, IH. split.
    + intros [(q & <- & Hq)|(k & c' & q & H1 & H2 & H3)].
      * exists 0%nat, c, q. rewrite Nat.add_0_r. auto.
      * exists (S k), c', q. rewrite <- Nat.add_succ_comm. auto.
    + intros ([|k] & c' & q & H1 & H2 & H3).
      * left. injection H1 as ->. exists q. rewrite Nat.add_0_r in H2. auto.
      * right. exists k, c', q. rewrite <- Nat.add_succ_comm in H2. auto.
Qed.
(** Both orders list exactly the nodes of the tree. *)
Lemma in_preorder t p : In p (preorder t) <-> subtree t p <> None.
Proof.
  revert p. induction t as [cs IH] using tree_ind'. intros p. cbn [preorder In]. rewrite in_forest. rewrite Forall_forall in IH. destruct p as [|i p]; cbn [subtree children].
  - split; [discriminate|auto].
  - split.
    + intros [H|(k & c & q & H1 & H2 & H3)]; [discriminate|]. injection H2 as -> ->. rewrite H1. apply IH; auto. eapply nth_error_In; eauto.
    + intros H. right. destruct (nth_error cs i) as [c|] eqn:E; [|congruence]. exists i, c, p. repeat split; auto. apply IH; auto. eapply nth_error_In; eauto.
Qed.
Lemma in_postorder t p : In p (postorder t) <-> subtree t p <> None.
Proof.
  revert p. induction t as [cs IH] using tree_ind'. intros p. cbn [postorder]. rewrite in_app_iff, in_forest. rewrite Forall_forall in IH. destruct p as [|i p]; cbn [subtree children In].
  - split; [discriminate|auto].
  - split.
    + intros [(k & c & q & H1 & H2 & H3)|[H|[]]]; [|discriminate]. injection H2 as -> ->. rewrite H1. apply IH; auto. eapply nth_error_In; eauto.
    + intros H. left. destruct (nth_error cs i) as [c|] eqn:E; [|congruence]. exists i, c, p. repeat split; auto. apply IH; auto. eapply nth_error_In; eauto.
Qed.
Lemma postorder_closings t : map (closing t) (postorder t) = positions false (enc t).
Proof.
  induction t as [cs IH] using tree_ind'. cbn [postorder]. rewrite map_app, enc_node, positions_app, positions_app. change (positions false [true]) with (@nil N). change (positions false [false]) with [0].
  cbn [app map]. rewrite map_app. f_equal.
  2:{ cbn [map]. f_equal. unfold closing. cbn [subtree handle]. rewrite len_enc. change (lenN [true]) with 1. lia. }
  change (lenN [true]) with 1.
  enough (G : forall ds, map (closing (Node (ds ++ cs))) (forest_paths postorder (length ds) cs) = map (N.add (1 + lenN (encs ds))) (positions false (encs cs))) by (apply (G [])).
  induction IH as [|c cs Hc _ IHc]; intros ds; [reflexivity|]. cbn [forest_paths]. fold (forest_paths postorder). rewrite map_app, encs_cons, positions_app, map_app. f_equal.
  - rewrite <- Hc. rewrite !map_map. apply map_ext_in. intros p Hp. apply in_postorder in Hp. unfold closing. cbn [subtree handle children]. rewrite nth_error_mid, firstn_mid.
    destruct (subtree c p) as [s|]; [|congruence]. pose proof (len_enc2 s). fold (encs ds). lia.
  - specialize (IHc (ds ++ [c])). rewrite app_length in IHc. cbn [length] in IHc. rewrite Nat.add_1_r, <- app_assoc in IHc. cbn [app] in IHc. etransitivity; [exact IHc|]. rewrite map_map.
    apply map_ext. intros x. rewrite encs_app, lenN_app. cbn [encs flat_map]. rewrite app_nil_r. lia.
Qed.

(** ** Sizes *)
Lemma count_enc t : count true (enc t) = tsize t /\ count false (enc t) = tsize t.
Proof.
  induction t as [cs IH] using tree_ind'. rewrite enc_node, !count_app. cbn [count Bool.eqb tsize].
  enough (count true (encs cs) = fold_right N.add 0 (map tsize cs) /\ count false (encs cs) = fold_right N.add 0 (map tsize cs)) by lia.
  induction IH as [|c cs [H1 H2] _ [I1 I2]]; [split; reflexivity|]. rewrite encs_cons, !count_app. cbn [map fold_right]. lia.
Qed.
Lemma enc_len_size t : lenN (enc t) = 2 * tsize t.
Proof. destruct (count_enc t). pose proof (count_true_false (enc t)). lia. Qed.
Lemma len_preorder t : lenN (preorder t) = tsize t.
Proof.
  destruct (count_enc t) as [<- _]. rewrite <- lenN_positions, <- preorder_handles. unfold lenN. now rewrite map_length.
Qed.

(** ** Ancestors *)
Lemma firstn_nth_lt (cs : list tree) i j c : (i < j)%nat -> nth_error cs i = Some c -> lenN (encs (firstn i cs)) + lenN (enc c) <= lenN (encs (firstn j cs)).
Proof.
  intros Hij Hc. assert (E : nth_error (firstn j cs) i = Some c).
  { rewrite <- Hc. rewrite <- (firstn_skipn j cs) at 2. rewrite nth_error_app1; auto. rewrite firstn_length. assert (i < length cs)%nat by (apply nth_error_Some; congruence). lia. }
  rewrite (forest_split _ i c E). rewrite firstn_firstn. replace (Nat.min i j) with i by lia. rewrite !lenN_app. lia.
Qed.
Lemma prefix_interval t a d sa sd : subtree t a = Some sa -> subtree t d = Some sd ->
  is_prefix a d = (handle t a <=? handle t d) && (handle t d <? handle t a + lenN (enc sa) - 1).
Proof.
  revert t d. induction a as [|i a IH]; intros t d Ha Hd.
  - injection Ha as ->. cbn [is_prefix handle]. symmetry. apply andb_true_intro. split; [apply N.leb_le; lia|apply N.ltb_lt].
    pose proof (an_in _ _ _ (at_node_ok _ _ _ Hd)). pose proof (len_enc2 sd). lia.
  - destruct d as [|j d].
    + cbn [is_prefix handle]. symmetry. apply andb_false_intro1. apply N.leb_gt. lia.
    + cbn [is_prefix handle subtree] in *. destruct t as [cs]. cbn [children] in *. destruct (nth_error cs i) as [c|] eqn:Ei; [|discriminate]. destruct (nth_error cs j) as [c'|] eqn:Ej; [|discriminate].
      fold (encs (firstn i cs)) (encs (firstn j cs)). destruct (Nat.eqb_spec i j) as [->|Hne].
      * assert (c' = c) by congruence. subst c'. cbn [andb]. rewrite (IH c d Ha Hd). pose proof (len_enc2 sa). f_equal.
        -- destruct (N.leb_spec (handle c a) (handle c d)), (N.leb_spec (1 + lenN (encs (firstn j cs)) + handle c a) (1 + lenN (encs (firstn j cs)) + handle c d)); auto; lia.
        -- destruct (N.ltb_spec (handle c d) (handle c a + lenN (enc sa) - 1)), (N.ltb_spec (1 + lenN (encs (firstn j cs)) + handle c d) (1 + lenN (encs (firstn j cs)) + handle c a + lenN (enc sa) - 1)); auto; lia.
      * cbn [andb]. symmetry. pose proof (an_in _ _ _ (at_node_ok _ _ _ Ha)). pose proof (an_in _ _ _ (at_node_ok _ _ _ Hd)). pose proof (len_enc2 sd). pose proof (len_enc2 sa).
        destruct (Nat.lt_trichotomy i j) as [Hl|[Hl|Hl]]; [|lia|].
        -- pose proof (firstn_nth_lt cs i j c Hl Ei). apply andb_false_intro2. apply N.ltb_ge. lia.
        -- pose proof (firstn_nth_lt cs j i c' Hl Ej). apply andb_false_intro1. apply N.leb_gt. lia.
Qed.
