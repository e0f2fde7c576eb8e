(** * Properties C41-C49, C61-C66: balanced parenthesis trees.

    [excess_before l p] (BpExcess.v) is the number of [true] minus the number of [false] among the
    first [p] elements of [l]; the excess "at" a position includes it. Trees, paths and encodings are
    in BpTreeSpec.v. *)
From Coq Require Import Sorting.Sorted.
From Verif Require Import Base Spec BaseFacts WordFacts BitVecModel BitVecProofs RsVecModel RsVecProofs RsVecSelect RsEqProofs RsIterProofs
  BpModel BpExcess BpLookup BpMmt BpSearch BpBlock BpTreeSpec BpTreeFacts BpTreeProofs.

(** The two lookup modules: the default one and the one of the feature [bp_u16_lookup]. *)
Definition a_lookup (lk : lookup) : Prop := lk = lookup8 \/ lk = lookup16.
Lemma a_lookup_ok lk : a_lookup lk -> lookup_ok lk.
Proof. intros [->| ->]; [apply lookup8_ok|apply lookup16_ok]. Qed.

(** [t] is the tree structure built from some bit vector with the bits [l]. *)
Definition built_from (B : N) (l : list bool) (t : bptree) : Prop :=
  exists bv, wf bv /\ bits bv = l /\ 0 < B /\ bp_from_bit_vector B bv = Ok t.
Lemma built_good B l t : built_from B l t -> exists bv, bp_good B bv t /\ bits bv = l /\ blen bv = lenN l.
Proof. intros (bv & Hwf & Hl & HB & Ht). exists bv. split; [now apply bp_built|]. split; [auto|]. rewrite <- Hl. symmetry. apply lenN_bits. Qed.
Theorem built_from_exists B l : 0 < B -> exists t, built_from B l t.
Proof.
  intros HB. destruct (bb_run_ok l) as (b & _ & Hwf & Hb & _). destruct (bp_from_ok B (bb_vec b) Hwf HB) as (t & Et & _). exists t, (bb_vec b). auto.
Qed.

Lemma rs_rank1_bits bv rs p : wf bv -> rs_good bv rs -> rs_rank1 rs p = Ok (rank_spec true (bits bv) p).
Proof. intros Hwf G. rewrite bits_rank. unfold rs_rank1. now rewrite (rs_rank_ok bv). Qed.

(** ** C41, C42: the searches. *)
(** The smallest position after [i] whose excess is the one at [i] plus [d]. *)
Definition is_fwd (l : list bool) (i : N) (d : Z) (o : option N) : Prop :=
  match o with
  | Some j => i < j /\ j < lenN l /\ excess_before l (j + 1) = (excess_before l (i + 1) + d)%Z /\
      forall k, i < k -> k < j -> excess_before l (k + 1) <> (excess_before l (i + 1) + d)%Z
  | None => forall k, i < k -> k < lenN l -> excess_before l (k + 1) <> (excess_before l (i + 1) + d)%Z
  end.
(** The largest position before [i] such that the excess before it is the one before [i] plus [d]. *)
Definition is_bwd (l : list bool) (i : N) (d : Z) (o : option N) : Prop :=
  match o with
  | Some j => j < i /\ excess_before l j = (excess_before l i + d)%Z /\
      forall k, j < k -> k < i -> excess_before l k <> (excess_before l i + d)%Z
  | None => forall k, k < i -> excess_before l k <> (excess_before l i + d)%Z
  end.
Definition C41_statement : Prop := forall lk B l t i d, a_lookup lk -> built_from B l t ->
  (-9223372036854775808 <= d <= 9223372036854775807)%Z -> exists o, bp_fwd_search lk B t i d = Ok o /\ is_fwd l i d o.
Definition C42_statement : Prop := forall lk B l t i d, a_lookup lk -> built_from B l t -> i < lenN l ->
  (-9223372036854775808 <= d <= 9223372036854775807)%Z -> exists o, bp_bwd_search lk B t i d = Ok o /\ is_bwd l i d o.

(** Missing: the empty expression, and excesses so large that [i64] arithmetic overflows. *)
Theorem C41_partial lk B l t i d : a_lookup lk -> built_from B l t -> l <> [] ->
  (Z.abs d + Z.of_N (lenN l) <= 9223372036854775807)%Z -> exists o, bp_fwd_search lk B t i d = Ok o /\ is_fwd l i d o.
Proof.
  intros Hlk Hb Hne Hd. destruct (built_good _ _ _ Hb) as (bv & G & Hl & Hlen). destruct (bp_fwd_search_ok lk B bv t i d (a_lookup_ok _ Hlk) G) as (o & E & H).
  - rewrite Hlen. destruct l; [congruence|]. rewrite lenN_cons. lia.
  - rewrite Hlen. auto.
  - rewrite Hl in H. exists o. auto.
Qed.
(** Missing: block sizes that neither divide the lookup width nor are multiples of it, and excesses so
    large that [i64] arithmetic overflows. *)
Theorem C42_partial lk B l t i d : a_lookup lk -> built_from B l t -> aligned lk B -> i < lenN l ->
  (Z.abs d + Z.of_N (lenN l) <= 9223372036854775807)%Z -> exists o, bp_bwd_search lk B t i d = Ok o /\ is_bwd l i d o.
Proof.
  intros Hlk Hb Hal Hi Hd. destruct (built_good _ _ _ Hb) as (bv & G & Hl & Hlen). destruct (bp_bwd_search_ok lk B bv t i d (a_lookup_ok _ Hlk) G Hal) as (o & E & H).
  - rewrite Hlen. auto.
  - rewrite Hlen, Hl in H. destruct (N.ltb_spec i (lenN l)); [|lia]. exists o. auto.
Qed.
Theorem C42_out_of_range lk B l t i d : built_from B l t -> lenN l <= i -> bp_bwd_search lk B t i d = Ok None.
Proof.
  intros Hb Hi. destruct (built_good _ _ _ Hb) as (bv & G & Hl & Hlen). unfold bp_bwd_search. rewrite (good_len _ _ (bg_rs _ _ _ G)), Hlen. destruct (N.leb_spec (lenN l) i); [reflexivity|lia].
Qed.

(** Concrete trees for the examples. *)
Definition mk (B : N) (l : list bool) : res bptree := let* b := bb_run l in bp_from_bit_vector B (bb_vec b).
Lemma mk_built B l t : 0 < B -> mk B l = Ok t -> built_from B l t.
Proof.
  intros HB H. unfold mk in H. destruct (bb_run_ok l) as (b & E & Hwf & Hb & _). rewrite E in H. cbn [bind] in H. exists (bb_vec b). auto.
Qed.
Lemma mk_ok B l : 0 < B -> exists t, mk B l = Ok t.
Proof.
  intros HB. unfold mk. destruct (bb_run_ok l) as (b & E & Hwf & Hb & _). rewrite E. cbn [bind]. destruct (bp_from_ok B (bb_vec b) Hwf HB) as (t & Et & _). eauto.
Qed.

(** [ ) ( ( ) ) ) ( ( ( ] in blocks of four, unbalanced: the searches cross blocks. *)
Definition ex_unbal : list bool := [false; true; true; false; false; false; true; true; true].
Example C41_ex : (let* t := mk 4 ex_unbal in let* a := bp_fwd_search lookup8 4 t 0 (-1) in let* b := bp_fwd_search lookup8 4 t 0 1 in let* c := bp_fwd_search lookup8 4 t 5 3 in
  let* d := bp_fwd_search lookup8 4 t 1 7 in Ok (a, b, c, d)) = Ok (Some 5, Some 1, Some 8, None).
Proof. vm_compute. reflexivity. Qed.
Example C42_ex : (let* t := mk 4 ex_unbal in let* a := bp_bwd_search lookup8 4 t 8 (-2) in let* b := bp_bwd_search lookup8 4 t 8 1 in let* c := bp_bwd_search lookup8 4 t 8 9 in Ok (a, b, c))
  = Ok (Some 6, Some 3, None).
Proof. vm_compute. reflexivity. Qed.

Theorem C41_refuted :
  (exists t, built_from 8 [] t /\ bp_fwd_search lookup8 8 t 0 0 = Panic) /\
  (exists t, built_from 8 [true; true] t /\ bp_fwd_search lookup8 8 t 0 (-9223372036854775808) = Panic) /\
  ~ C41_statement.
Proof.
  assert (H1 : exists t, built_from 8 [] t /\ bp_fwd_search lookup8 8 t 0 0 = Panic).
  { eexists. split; [apply mk_built; [reflexivity|vm_compute; reflexivity]|vm_compute; reflexivity]. }
  split; [exact H1|]. split.
  - eexists. split; [apply mk_built; [reflexivity|vm_compute; reflexivity]|vm_compute; reflexivity].
  - intros H. destruct H1 as (t & Hb & Ht). destruct (H lookup8 8 [] t 0 0%Z (or_introl eq_refl) Hb ltac:(lia)) as (o & E & _). congruence.
Qed.
(** With blocks of 12 parentheses the backward search re-reads bits it has already passed and returns
    a position after its start. *)
Theorem C42_refuted :
  (exists t, built_from 12 (replicate 20 true) t /\ bp_bwd_search lookup8 12 t 18 (-3) = Ok (Some 19)) /\
  (exists t, built_from 8 [true; true] t /\ bp_bwd_search lookup8 8 t 1 9223372036854775807 = Panic) /\
  ~ C42_statement.
Proof.
  assert (H1 : exists t, built_from 12 (replicate 20 true) t /\ bp_bwd_search lookup8 12 t 18 (-3) = Ok (Some 19)).
  { eexists. split; [apply mk_built; [reflexivity|vm_compute; reflexivity]|vm_compute; reflexivity]. }
  split; [exact H1|]. split.
  - eexists. split; [apply mk_built; [reflexivity|vm_compute; reflexivity]|vm_compute; reflexivity].
  - intros H. destruct H1 as (t & Hb & Ht). destruct (H lookup8 12 _ t 18 (-3)%Z (or_introl eq_refl) Hb ltac:(reflexivity) ltac:(lia)) as (o & E & Ho). rewrite Ht in E. injection E as <-. cbn in Ho. lia.
Qed.

(** ** Trees. [represents B t bt]: [bt] was built with block size [B] from the encoding of [t]; the
    encoding is not astronomically large. *)
Definition represents (B : N) (t : tree) (bt : bptree) : Prop :=
  built_from B (enc t) bt /\ (Z.of_N (lenN (enc t)) + 2 <= 9223372036854775807)%Z.
Theorem represents_exists B t : 0 < B -> (Z.of_N (lenN (enc t)) + 2 <= 9223372036854775807)%Z -> exists bt, represents B t bt.
Proof. intros HB Hf. destruct (built_from_exists B (enc t) HB) as (bt & H). exists bt. split; auto. Qed.
Lemma represents_good B t bt : represents B t bt -> exists bv, bp_good B bv bt /\ bits bv = enc t /\ (Z.of_N (blen bv) + 2 <= 9223372036854775807)%Z.
Proof. intros [Hb Hf]. destruct (built_good _ _ _ Hb) as (bv & G & Hl & Hlen). exists bv. rewrite Hlen. auto. Qed.
Ltac rep H := let bv := fresh "bv" in destruct (represents_good _ _ _ H) as (bv & ?G & ?Hbits & ?Hfit).

(** The example tree: [( ( ( ) ( ( ) ) ) ( ) ( ( ) ) )] in blocks of four. *)
Definition ex_tree : tree := Node [Node [Node []; Node [Node []]]; Node []; Node [Node []]].
Definition ex_bt : res bptree := mk 4 (enc ex_tree).
Lemma ex_represents bt : ex_bt = Ok bt -> represents 4 ex_tree bt.
Proof. intros H. split; [apply mk_built; [reflexivity|exact H]|]. vm_compute. discriminate. Qed.
Lemma four_aligned lk : a_lookup lk -> aligned lk 4.
Proof. intros [->| ->]; right; reflexivity. Qed.
(** The default block size. *)
Lemma default_aligned lk : a_lookup lk -> aligned lk 512.
Proof. intros [->| ->]; left; reflexivity. Qed.
(** A tree for which blocks of 12 go wrong: node 17 is a child of node 14. *)
Definition mis_tree : tree :=
  Nat.iter 14 (fun t => Node [t]) (Node [Node []; Node [Node [Node []]]]).
Lemma mis_represents bt : mk 12 (enc mis_tree) = Ok bt -> represents 12 mis_tree bt.
Proof. intros H. split; [apply mk_built; [reflexivity|exact H]|]. vm_compute. discriminate. Qed.
Definition mis_path : path := repeat 0%nat 14 ++ [1%nat].

(** ** C43: matching parentheses. *)
(** Missing: [open] and [enclose] for block sizes that are not aligned with the lookup width. *)
Theorem C43_partial lk B t bt p s : a_lookup lk -> represents B t bt -> subtree t p = Some s ->
  bp_close lk B bt (handle t p) = Ok (Some (closing t p)) /\
  (aligned lk B ->
    bp_open lk B bt (closing t p) = Ok (Some (handle t p)) /\
    (forall q i, p = q ++ [i] ->
      bp_enclose lk B bt (handle t p) = Ok (Some (handle t q)) /\ bp_enclose lk B bt (closing t p) = Ok (Some (handle t q))) /\
    (p = [] -> bp_enclose lk B bt (handle t p) = Ok None /\ bp_enclose lk B bt (closing t p) = Ok None)).
Proof.
  intros Hlk H Hp. apply a_lookup_ok in Hlk. rep H. split; [eapply close_ok; eauto|]. intros Hal. split; [eapply open_ok; eauto|]. split.
  - intros q i ->. split; [eapply enclose_open_ok; eauto|eapply enclose_close_ok; eauto].
  - intros ->. eapply enclose_root_ok; eauto.
Qed.
(** What the two parentheses of a node are: they enclose exactly the encoding of its subtree. *)
Theorem handle_closing t p s : subtree t p = Some s ->
  closing t p < lenN (enc t) /\ sliceN (handle t p) (closing t p + 1 - handle t p) (enc t) = enc s.
Proof.
  intros Hp. destruct (node_split t p s Hp) as (pre & post & E1 & E2 & _). unfold closing. rewrite Hp. pose proof (len_enc2 s). split; [rewrite E1, !lenN_app; lia|].
  replace (handle t p + lenN (enc s) - 1 + 1 - handle t p) with (lenN (enc s)) by lia. rewrite <- E2, E1. unfold sliceN. rewrite dropN_app_exact, takeN_app_exact. reflexivity.
Qed.

Example C43_ex : (let* t := ex_bt in let* a := bp_close lookup8 4 t 4 in let* b := bp_open lookup8 4 t 8 in let* c := bp_enclose lookup8 4 t 5 in let* d := bp_enclose lookup8 4 t 7 in let* e := bp_enclose lookup8 4 t 0 in Ok (a, b, c, d, e))
  = Ok (Some 7, Some 1, Some 4, Some 1, None) /\
  subtree ex_tree [0; 1]%nat = Some (Node [Node []]) /\ handle ex_tree [0; 1]%nat = 4 /\ closing ex_tree [0; 1]%nat = 7.
Proof. vm_compute. auto. Qed.
Theorem C43_refuted : exists t bt q i, represents 12 t bt /\ subtree t (q ++ [i]) <> None /\
  bp_enclose lookup8 12 bt (handle t (q ++ [i])) <> Ok (Some (handle t q)).
Proof.
  destruct (mk 12 (enc mis_tree)) as [bt| |] eqn:E; [|vm_compute in E; discriminate E|vm_compute in E; discriminate E].
  exists mis_tree, bt, (repeat 0%nat 14), 1%nat. split; [now apply mis_represents|]. split; [vm_compute; discriminate|].
  assert (H : (let* bt := mk 12 (enc mis_tree) in bp_enclose lookup8 12 bt (handle mis_tree (repeat 0%nat 14 ++ [1%nat]))) = Ok (Some 18)) by (vm_compute; reflexivity).
  rewrite E in H. cbn [bind] in H. rewrite H. vm_compute. discriminate.
Qed.

(** ** C44: navigation. *)
(** Missing: [parent], [last_child] and [previous_sibling] for block sizes not aligned with the lookup width. *)
Theorem C44_partial lk B t bt p cs : a_lookup lk -> represents B t bt -> subtree t p = Some (Node cs) ->
  bp_root bt = Some (handle t []) /\
  bp_first_child bt (handle t p) = Ok (match cs with [] => None | _ => Some (handle t (p ++ [0%nat])) end) /\
  bp_is_leaf bt (handle t p) = Ok (match cs with [] => true | _ => false end) /\
  (forall i, (i < length cs)%nat ->
    bp_next_sibling lk B bt (handle t (p ++ [i])) = Ok (if (S i <? length cs)%nat then Some (handle t (p ++ [S i])) else None)) /\
  bp_next_sibling lk B bt (handle t []) = Ok None /\
  (aligned lk B ->
    bp_last_child lk B bt (handle t p) = Ok (match cs with [] => None | _ => Some (handle t (p ++ [(length cs - 1)%nat])) end) /\
    (forall i, (i < length cs)%nat ->
      bp_parent lk B bt (handle t (p ++ [i])) = Ok (Some (handle t p)) /\
      bp_previous_sibling lk B bt (handle t (p ++ [i])) = Ok (match i with O => None | S j => Some (handle t (p ++ [j])) end)) /\
    bp_parent lk B bt (handle t []) = Ok None /\
    bp_previous_sibling lk B bt (handle t []) = Ok None).
Proof.
  intros Hlk H Hp. apply a_lookup_ok in Hlk. rep H.
  assert (Hc : forall i, (i < length cs)%nat -> exists c, nth_error cs i = Some c).
  { intros i Hi. destruct (nth_error cs i) as [c|] eqn:E; [eauto|]. apply nth_error_None in E. lia. }
  split. { unfold bp_root. rewrite (rlen_enc B bv bt t G Hbits). pose proof (len_enc2 t). destruct (N.eqb_spec (lenN (enc t)) 0); [lia|reflexivity]. }
  split; [eapply first_child_ok; eauto|]. split; [exact (is_leaf_ok B bv bt t G Hbits p (Node cs) Hp)|].
  split. { intros i Hi. destruct (Hc i Hi) as (c & Ec). eapply next_sibling_ok; eauto. }
  split; [eapply next_sibling_root_ok; eauto|]. intros Hal. split; [eapply last_child_ok; eauto|]. split.
  - intros i Hi. destruct (Hc i Hi) as (c & Ec). split; [eapply parent_ok; eauto; eapply child_sub; eauto|eapply previous_sibling_ok; eauto].
  - split; [eapply parent_root_ok; eauto|eapply previous_sibling_root_ok; eauto].
Qed.
Example C44_ex : (let* t := ex_bt in let* a := bp_parent lookup8 4 t 5 in let* b := bp_first_child t 1 in let* c := bp_last_child lookup8 4 t 0 in let* d := bp_next_sibling lookup8 4 t 1 in
    let* e := bp_previous_sibling lookup8 4 t 11 in let* f := bp_is_leaf t 9 in let* g := bp_parent lookup8 4 t 0 in Ok (a, b, c, d, e, f, g))
  = Ok (Some 4, Some 2, Some 11, Some 9, Some 9, true, None) /\ map (handle ex_tree) (preorder ex_tree) = [0; 1; 2; 4; 5; 9; 11; 12].
Proof. vm_compute. auto. Qed.
Theorem C44_refuted : exists t bt p i cs, represents 12 t bt /\ subtree t p = Some (Node cs) /\ (i < length cs)%nat /\
  bp_parent lookup8 12 bt (handle t (p ++ [i])) = Ok (Some 18) /\ handle t p = 14.
Proof.
  destruct (mk 12 (enc mis_tree)) as [bt| |] eqn:E; [|vm_compute in E; discriminate E|vm_compute in E; discriminate E].
  exists mis_tree, bt, (repeat 0%nat 14), 1%nat, [Node []; Node [Node [Node []]]]. split; [now apply mis_represents|]. split; [vm_compute; reflexivity|]. split; [cbn; lia|].
  assert (H : (let* bt := mk 12 (enc mis_tree) in bp_parent lookup8 12 bt (handle mis_tree (repeat 0%nat 14 ++ [1%nat]))) = Ok (Some 18)) by (vm_compute; reflexivity).
  rewrite E in H. split; [exact H|vm_compute; reflexivity].
Qed.

(** ** C45: numbering, depth, sizes, ancestors. *)
Theorem C45_numbering B t bt k p : represents B t bt -> getN (preorder t) k = Some p ->
  bp_node_index bt (handle t p) = Ok k /\ bp_node_handle bt k = Ok (handle t p).
Proof. intros H Hk. rep H. eapply node_index_ok; eauto. Qed.
Theorem C45_depth_size lk B t bt p s : a_lookup lk -> represents B t bt -> subtree t p = Some s ->
  bp_depth bt (handle t p) = Ok (lenN p) /\ bp_size bt = Ok (tsize t) /\ bp_subtree_size lk B bt (handle t p) = Ok (Some (tsize s)) /\
  bp_is_empty bt = false.
Proof.
  intros Hlk H Hp. apply a_lookup_ok in Hlk. rep H. split; [eapply depth_ok; eauto|]. split; [eapply size_ok; eauto|]. split; [eapply subtree_size_ok; eauto|].
  unfold bp_is_empty. rewrite (rlen_enc B bv bt t G Hbits). pose proof (len_enc2 t). destruct (N.eqb_spec (lenN (enc t)) 0); [lia|reflexivity].
Qed.
Theorem C45_is_ancestor lk B t bt a d : a_lookup lk -> represents B t bt -> subtree t a <> None -> subtree t d <> None ->
  exists b, bp_is_ancestor lk B bt (handle t a) (handle t d) = Ok (Some b) /\ (b = true <-> exists q, d = a ++ q).
Proof.
  intros Hlk H Ha Hd. apply a_lookup_ok in Hlk. rep H. destruct (subtree t a) as [sa|] eqn:Ea; [|congruence]. destruct (subtree t d) as [sd|] eqn:Ed; [|congruence].
  exists (is_prefix a d). split; [eapply is_ancestor_ok; eauto|]. clear. revert d. induction a as [|x a IH]; intros d; cbn; [split; eauto|]. destruct d as [|y d]; [split; [discriminate|intros (q & E); discriminate]|].
  rewrite Bool.andb_true_iff, Nat.eqb_eq, IH. split; [intros [-> (q & ->)]; eauto|intros (q & E); injection E as -> ->; eauto].
Qed.
Lemma ss_NoDup (l : list N) : StronglySorted N.lt l -> NoDup l.
Proof.
  induction 1 as [|x l H IH Hf]; constructor; auto. intros Hin. rewrite Forall_forall in Hf. apply Hf in Hin. lia.
Qed.
(** The pre-order list contains every node once. *)
Theorem preorder_complete t p : (In p (preorder t) <-> subtree t p <> None) /\ NoDup (preorder t) /\ lenN (preorder t) = tsize t.
Proof.
  split; [apply in_preorder|]. split; [|apply len_preorder]. apply (NoDup_map_inv (handle t)). rewrite preorder_handles. apply ss_NoDup, ss_positions.
Qed.
Example C45_ex : (let* t := ex_bt in let* a := bp_node_index t 9 in let* b := bp_node_handle t 5 in let* c := bp_depth t 5 in let* d := bp_size t in let* e := bp_subtree_size lookup8 4 t 1 in
    let* f := bp_is_ancestor lookup8 4 t 1 5 in let* g := bp_is_ancestor lookup8 4 t 1 9 in Ok (a, b, c, d, e, f, g))
  = Ok (5, 9, 3, 8, Some 4, Some true, Some false).
Proof. vm_compute. reflexivity. Qed.

(** ** C46: levels. *)
(** [level_ancestor] works on any node, [level_next]/[level_prev] on the [i]-th node of level [k].
    Missing: levels that do not fit an [i64] together with the length, [level_rightmost(0)] on a
    single node, and unaligned block sizes for the functions that search backwards. *)
Theorem C46_partial lk B t bt : a_lookup lk -> represents B t bt ->
  (forall k p i, getN (level t k) i = Some p -> bp_level_next lk B bt (handle t p) = Ok (option_map (handle t) (getN (level t k) (i + 1)))) /\
  (forall k, (Z.of_N k + Z.of_N (lenN (enc t)) <= 9223372036854775807)%Z -> bp_level_leftmost lk B bt k = Ok (option_map (handle t) (getN (level t k) 0))) /\
  (aligned lk B ->
    (forall p l, subtree t p <> None -> (Z.of_N l + Z.of_N (lenN (enc t)) <= 9223372036854775807)%Z ->
      bp_level_ancestor lk B bt (handle t p) l = Ok (if l <=? lenN p then Some (handle t (takeN (lenN p - l) p)) else None)) /\
    (forall k p i, getN (level t k) i = Some p -> bp_level_prev lk B bt (handle t p) = Ok (if i =? 0 then None else option_map (handle t) (getN (level t k) (i - 1)))) /\
    (forall k, (Z.of_N k + Z.of_N (lenN (enc t)) <= 9223372036854775807)%Z -> 1 <= k \/ 2 <= tsize t ->
      bp_level_rightmost lk B bt k = Ok (option_map (handle t) (getN (level t k) (lenN (level t k) - 1))))).
Proof.
  intros Hlk H. apply a_lookup_ok in Hlk. rep H. split; [intros; eapply level_next_ok; eauto|]. split; [intros; eapply level_leftmost_ok; eauto|]. intros Hal. split; [|split].
  - intros p l Hp Hl. destruct (subtree t p) as [s|] eqn:Es; [|congruence]. rewrite (level_ancestor_ok lk B bv bt t Hlk G Hal Hbits p s l Es Hl). unfold takeN, lenN. rewrite N2Nat.inj_sub, Nat2N.id. reflexivity.
  - intros. eapply level_prev_ok; eauto.
  - intros. eapply level_rightmost_ok; eauto.
Qed.
(** The nodes of a level are those of the given depth, from left to right. *)
Theorem level_spec t k p : (In p (level t k) <-> subtree t p <> None /\ lenN p = k) /\ StronglySorted N.lt (map (handle t) (level t k)).
Proof.
  split; [|apply level_sorted]. unfold level. rewrite filter_In, in_preorder, N.eqb_eq. reflexivity.
Qed.
Example C46_ex : (let* t := ex_bt in let* a := bp_level_ancestor lookup8 4 t 5 2 in let* b := bp_level_next lookup8 4 t 4 in let* c := bp_level_prev lookup8 4 t 12 in let* d := bp_level_leftmost lookup8 4 t 2 in
    let* e := bp_level_rightmost lookup8 4 t 2 in let* f := bp_level_ancestor lookup8 4 t 5 4 in let* g := bp_level_rightmost lookup8 4 t 4 in Ok (a, b, c, d, e, f, g))
  = Ok (Some 1, Some 12, Some 4, Some 2, Some 12, None, None) /\ level ex_tree 2 = [[0; 0]; [0; 1]; [2; 0]]%nat.
Proof. vm_compute. auto. Qed.
Theorem C46_refuted :
  (exists bt, represents 8 (Node []) bt /\ bp_level_rightmost lookup8 8 bt 0 = Ok None) /\
  (exists bt, represents 8 (Node []) bt /\ level (Node []) (2 ^ 64 - 1) = [] /\ bp_level_leftmost lookup8 8 bt (2 ^ 64 - 1) = Ok (Some 1)) /\
  (exists bt, represents 8 (Node []) bt /\ bp_level_ancestor lookup8 8 bt 0 (2 ^ 63) = Panic).
Proof.
  assert (R : forall bt, mk 8 (enc (Node [])) = Ok bt -> represents 8 (Node []) bt) by (intros bt H; split; [apply mk_built; [reflexivity|exact H]|vm_compute; discriminate]).
  split; [|split]; eexists; (split; [apply R; vm_compute; reflexivity|]); try (split; [reflexivity|]); vm_compute; reflexivity.
Qed.

(** ** C47: the builder. [true] is [enter_node], [false] is [leave_node]. *)
Theorem C47_builder B ops : 0 < B ->
  exists b, bb_run ops = Ok b /\
    if count true ops =? count false ops then exists t, bb_build B b = Ok (inl t) /\ built_from B ops t /\ bits (bp_into_bit_vec t) = ops
    else bb_build B b = Ok (inr (Z.of_N (count true ops) - Z.of_N (count false ops))%Z).
Proof.
  intros HB. destruct (bb_run_ok ops) as (b & E & Hwf & Hb & He). exists b. split; [auto|]. unfold bb_build. rewrite He. destruct (N.eqb_spec (count true ops) (count false ops)) as [Hc|Hc].
  - destruct (Z.eqb_spec (Z.of_N (count true ops) - Z.of_N (count false ops)) 0); [|lia]. cbn [negb]. destruct (bp_from_ok B (bb_vec b) Hwf HB) as (t & Et & G & _). rewrite Et. cbn [bind]. exists t. split; [auto|]. split.
    + exists (bb_vec b). auto.
    + unfold bp_into_bit_vec, bp_into_parentheses_vec. rewrite <- Hb. now rewrite (rs_into_bit_vec_ok _ _ G).
  - destruct (Z.eqb_spec (Z.of_N (count true ops) - Z.of_N (count false ops)) 0); [lia|]. reflexivity.
Qed.
(** A depth-first traversal of a tree enters and leaves its nodes in the order of the encoding. *)
Theorem C47_traversal B t : 0 < B -> exists b bt, bb_run (enc t) = Ok b /\ bb_build B b = Ok (inl bt) /\ built_from B (enc t) bt /\ bp_size bt = Ok (tsize t).
Proof.
  intros HB. destruct (C47_builder B (enc t) HB) as (b & E & H). destruct (count_enc t) as [C1 C2]. rewrite C1, C2, N.eqb_refl in H. destruct H as (bt & Eb & Hf & _). exists b, bt. repeat (split; [auto|]).
  destruct (built_good _ _ _ Hf) as (bv & G & Hl & _). eapply size_ok; eauto.
Qed.
Example C47_ex : (let* b := bb_run [true; true; false] in bb_build 8 b) = Ok (inr 1%Z) /\ (let* b := bb_run [false; false; true] in bb_build 8 b) = Ok (inr (-1)%Z) /\
  (let* b := bb_run (enc ex_tree) in let* r := bb_build 8 b in match r with inl t => bp_size t | inr _ => Panic end) = Ok 8.
Proof. vm_compute. auto. Qed.

(** ** C48: iterators. *)
(** Missing: [dfs_post_iter], [subtree_post_iter] and [rev_children] for block sizes not aligned with the lookup width. *)
Theorem C48_partial lk B t bt : a_lookup lk -> represents B t bt ->
  bp_dfs_list bt = Ok (map (handle t) (preorder t)) /\
  (forall p s, subtree t p = Some s -> bp_subtree_list lk B bt (handle t p) = Ok (map (fun q => handle t (p ++ q)) (preorder s))) /\
  (forall p cs, subtree t p = Some (Node cs) -> bp_children_list lk B true bt (handle t p) = Ok (map (fun i => handle t (p ++ [i])) (seq 0 (length cs)))) /\
  (aligned lk B ->
    bp_dfs_post_list lk B bt = Ok (map (handle t) (postorder t)) /\
    (forall p s, subtree t p = Some s -> bp_subtree_post_list lk B bt (handle t p) = Ok (map (fun q => handle t (p ++ q)) (postorder s))) /\
    (forall p cs, subtree t p = Some (Node cs) -> bp_children_list lk B false bt (handle t p) = Ok (map (fun i => handle t (p ++ [i])) (rev (seq 0 (length cs)))))).
Proof.
  intros Hlk H. apply a_lookup_ok in Hlk. rep H. split; [eapply dfs_ok; eauto|]. split; [intros; eapply subtree_list_ok; eauto|]. split; [intros; eapply children_ok; eauto|]. intros Hal.
  split; [eapply dfs_post_ok; eauto|]. split; [intros; eapply subtree_post_list_ok; eauto|intros; eapply rev_children_ok; eauto].
Qed.
Example C48_ex : (let* t := ex_bt in let* a := bp_dfs_list t in let* b := bp_dfs_post_list lookup8 4 t in let* c := bp_subtree_list lookup8 4 t 1 in let* d := bp_subtree_post_list lookup8 4 t 1 in
    let* e := bp_children_list lookup8 4 true t 0 in let* f := bp_children_list lookup8 4 false t 0 in Ok (a, b, c, d, e, f))
  = Ok ([0; 1; 2; 4; 5; 9; 11; 12], [2; 5; 4; 1; 9; 12; 11; 0], [1; 2; 4; 5], [2; 5; 4; 1], [1; 9; 11], [11; 9; 1]).
Proof. vm_compute. reflexivity. Qed.

(** ** C49: degenerate trees. *)
(** What holds: the other queries on the empty expression, and everything but [level_rightmost(0)] on a single node. *)
Theorem C49_partial lk B bt : a_lookup lk ->
  (built_from B [] bt ->
    bp_root bt = None /\ bp_size bt = Ok 0 /\ bp_is_empty bt = true /\ bp_dfs_list bt = Ok [] /\ bp_dfs_post_list lk B bt = Ok [] /\
    forall i d, bp_bwd_search lk B bt i d = Ok None /\ bp_close lk B bt i = Ok None /\ bp_open lk B bt i = Ok None /\ bp_enclose lk B bt i = Ok None /\
      bp_level_next lk B bt i = Ok None /\ bp_level_prev lk B bt i = Ok None) /\
  (represents B (Node []) bt ->
    (forall i d, (Z.abs d <= 2 ^ 63 - 3)%Z -> exists o, bp_fwd_search lk B bt i d = Ok o /\ is_fwd [true; false] i d o) /\
    bp_level_leftmost lk B bt 0 = Ok (Some 0) /\
    (aligned lk B -> forall k, 1 <= k -> k <= 2 ^ 63 - 3 -> bp_level_leftmost lk B bt k = Ok None /\ bp_level_rightmost lk B bt k = Ok None)).
Proof.
  intros Hlk. split.
  - intros Hb. destruct (built_good _ _ _ Hb) as (bv & G & Hl & Hlen). cbn in Hlen. pose proof (good_len _ _ (bg_rs _ _ _ G)) as Hr. rewrite Hlen in Hr.
    assert (Hnone : forall i d, bp_bwd_search lk B bt i d = Ok None) by (intros; eapply C42_out_of_range; eauto; cbn; lia).
    assert (Hle : forall i, (rlen (bp_vec bt) <=? i) = true) by (intros i; rewrite Hr; apply N.leb_le; lia).
    split; [unfold bp_root; now rewrite Hr|]. split. { unfold bp_size. rewrite (rs_rank1_bits bv) by apply G. rewrite Hl, Hr. reflexivity. }
    split; [unfold bp_is_empty; now rewrite Hr|]. split.
    { unfold bp_dfs_list, bp_dfs_iter. destruct (sel_new_ok false bv (bp_vec bt) (bg_wf _ _ _ G) (bg_rs _ _ _ G)) as (it & E1 & HR). rewrite E1. cbn [bind]. unfold posz in HR. rewrite Hl in HR.
      apply (collect_ok (sel_R false bv (bp_vec bt))); [intros; now apply sel_next_ok; try apply G|exact HR|unfold bp_fuel; cbn; lia]. }
    split.
    { unfold bp_dfs_post_list. destruct (sel_new_ok true bv (bp_vec bt) (bg_wf _ _ _ G) (bg_rs _ _ _ G)) as (it & E1 & HR). rewrite E1. cbn [bind]. unfold posz in HR. rewrite Hl in HR.
      eapply (collect_ok _ _ (map_step (sel_R true bv (bp_vec bt)) _ (bp_open_item lk B bt) (fun x => x) ltac:(intros s l; apply sel_next_ok; apply G))); [|unfold bp_fuel; cbn; lia].
      exists []. split; [exact HR|]. split; [intros ? []|reflexivity]. }
    intros i d. unfold bp_close, bp_open, bp_enclose, bp_level_next, bp_level_prev, bp_close. rewrite !Hle, !Hnone. auto 7.
  - intros H. pose proof H as [Hb Hf]. change (2 ^ 63 - 3)%Z with 9223372036854775805%Z. split; [|split].
    + intros i d Hd. eapply C41_partial; eauto; [discriminate|]. cbn. lia.
    + reflexivity.
    + intros Hal k K1 K2. change (2 ^ 63 - 3) with 9223372036854775805 in K2. destruct (C46_partial lk B (Node []) bt Hlk H) as (_ & H2 & H3). destruct (H3 Hal) as (_ & _ & H5).
      assert (El : level (Node []) k = []) by (unfold level; cbn [preorder forest_paths filter]; destruct (N.eqb_spec (lenN (@nil nat)) k) as [E|E]; [cbn in E; lia|reflexivity]).
      rewrite H2, H5, El; cbn; auto; lia.
Qed.
Example C49_ex : (let* t := mk 8 [] in Ok (bp_root t)) = Ok None /\ (let* t := mk 8 [] in bp_bwd_search lookup8 8 t 0 0) = Ok None /\ (let* t := mk 8 (enc (Node [])) in bp_fwd_search lookup8 8 t 0 (-1)) = Ok (Some 1).
Proof. vm_compute. auto. Qed.
Theorem C49_refuted :
  (exists t, built_from 8 [] t /\ bp_fwd_search lookup8 8 t 0 (-1) = Panic /\ bp_level_rightmost lookup8 8 t 0 = Panic /\ bp_level_leftmost lookup8 8 t 0 = Ok (Some 0)) /\
  (exists t, represents 8 (Node []) t /\ bp_level_rightmost lookup8 8 t 0 = Ok None).
Proof.
  split; [|apply C46_refuted]. eexists. split; [apply mk_built; [reflexivity|vm_compute; reflexivity]|]. vm_compute. auto.
Qed.

(** ** C61: the exact behaviour of the other queries on an empty expression. *)
Theorem C61_empty lk B bt : built_from B [] bt ->
  (forall i d, bp_fwd_search lk B bt i d = Panic) /\
  bp_level_leftmost lk B bt 0 = Ok (Some 0) /\
  (forall k, 1 <= k -> bp_level_leftmost lk B bt k = Panic) /\
  (forall k, bp_level_rightmost lk B bt k = Panic).
Proof.
  intros Hb. destruct (built_good _ _ _ Hb) as (bv & G & Hl & Hlen). cbn in Hlen. pose proof (good_len _ _ (bg_rs _ _ _ G)) as Hr. rewrite Hlen in Hr.
  assert (Hf : forall i d, bp_fwd_search lk B bt i d = Panic) by (intros; unfold bp_fwd_search; rewrite Hr; reflexivity).
  split; [auto|]. split; [reflexivity|]. split.
  - intros k Hk. unfold bp_level_leftmost. destruct (N.eqb_spec k 0); [lia|]. apply Hf.
  - intros k. unfold bp_level_rightmost, bp_size. rewrite (rs_rank1_bits bv) by apply G. rewrite Hl, Hr. reflexivity.
Qed.
Example C61_ex : (let* t := mk 8 [] in bp_fwd_search lookup8 8 t 3 2) = Panic /\ (let* t := mk 8 [] in bp_level_leftmost lookup8 8 t 0) = Ok (Some 0).
Proof. vm_compute. auto. Qed.

(** ** C62: the exact corners of the level queries. *)
Theorem C62_corners lk B t bt : a_lookup lk -> represents B t bt ->
  (aligned lk B -> t = Node [] -> bp_level_rightmost lk B bt 0 = Ok None) /\
  bp_level_leftmost lk B bt (2 ^ 64 - 1) = Ok (Some (closing t [])) /\
  (forall i, bp_level_ancestor lk B bt i (2 ^ 63) = Panic).
Proof.
  intros Hlk H. apply a_lookup_ok in Hlk. rep H. split; [|split].
  - intros Hal ->. unfold bp_level_rightmost. rewrite (size_ok B bv bt _ G Hbits). cbn [bind]. change (sub (tsize (Node []) * 2) 1) with (Ok 1). cbn [bind]. change (as_i64 0) with 0%Z.
    rewrite (bwd_eq lk B bv bt (Node []) Hlk G Hal Hbits 1 0 None); [reflexivity| |reflexivity|]; [cbn; lia|]. cbn. intros k Hk. assert (k = 0) by lia. subst k. vm_compute. discriminate.
  - unfold bp_level_leftmost. change (2 ^ 64 - 1 =? 0) with false. cbn beta iota. change (as_i64 (2 ^ 64 - 1)) with (-1)%Z. pose proof (close_ok lk B bv bt t Hlk G Hbits Hfit [] t eq_refl) as Hc.
    unfold bp_close in Hc. cbn [handle] in Hc. rewrite (rlen_enc B bv bt t G Hbits) in Hc. pose proof (len_enc2 t). destruct (N.leb_spec (lenN (enc t)) 0); [lia|exact Hc].
  - intros i. reflexivity.
Qed.
Example C62_ex : (let* t := ex_bt in bp_level_leftmost lookup8 4 t (2 ^ 64 - 1)) = Ok (Some 15) /\ closing ex_tree [] = 15.
Proof. vm_compute. auto. Qed.

(** ** C63-C65: C43, C44 and C48 for aligned block sizes, among them the default of 512. *)
Theorem C63_matching lk B t bt p s : a_lookup lk -> aligned lk B -> represents B t bt -> subtree t p = Some s ->
  bp_close lk B bt (handle t p) = Ok (Some (closing t p)) /\ bp_open lk B bt (closing t p) = Ok (Some (handle t p)) /\
  (forall q i, p = q ++ [i] ->
    bp_enclose lk B bt (handle t p) = Ok (Some (handle t q)) /\ bp_enclose lk B bt (closing t p) = Ok (Some (handle t q))) /\
  (p = [] -> bp_enclose lk B bt (handle t p) = Ok None /\ bp_enclose lk B bt (closing t p) = Ok None).
Proof. intros Hlk Hal H Hp. destruct (C43_partial lk B t bt p s Hlk H Hp) as [H1 H2]. auto. Qed.
Theorem C64_navigation lk B t bt p cs : a_lookup lk -> aligned lk B -> represents B t bt -> subtree t p = Some (Node cs) ->
  bp_root bt = Some (handle t []) /\
  bp_first_child bt (handle t p) = Ok (match cs with [] => None | _ => Some (handle t (p ++ [0%nat])) end) /\
  bp_last_child lk B bt (handle t p) = Ok (match cs with [] => None | _ => Some (handle t (p ++ [(length cs - 1)%nat])) end) /\
  bp_is_leaf bt (handle t p) = Ok (match cs with [] => true | _ => false end) /\
  (forall i, (i < length cs)%nat ->
    bp_parent lk B bt (handle t (p ++ [i])) = Ok (Some (handle t p)) /\
    bp_next_sibling lk B bt (handle t (p ++ [i])) = Ok (if (S i <? length cs)%nat then Some (handle t (p ++ [S i])) else None) /\
    bp_previous_sibling lk B bt (handle t (p ++ [i])) = Ok (match i with O => None | S j => Some (handle t (p ++ [j])) end)) /\
  bp_parent lk B bt (handle t []) = Ok None /\ bp_next_sibling lk B bt (handle t []) = Ok None /\ bp_previous_sibling lk B bt (handle t []) = Ok None.
Proof.
  intros Hlk Hal H Hp. destruct (C44_partial lk B t bt p cs Hlk H Hp) as (H1 & H2 & H3 & H4 & H5 & H6). destruct (H6 Hal) as (K1 & K2 & K3 & K4).
  repeat (split; [assumption|]). split; [|auto]. intros i Hi. destruct (K2 i Hi). auto.
Qed.
Theorem C65_iterators lk B t bt : a_lookup lk -> aligned lk B -> represents B t bt ->
  bp_dfs_list bt = Ok (map (handle t) (preorder t)) /\ bp_dfs_post_list lk B bt = Ok (map (handle t) (postorder t)) /\
  (forall p s, subtree t p = Some s ->
    bp_subtree_list lk B bt (handle t p) = Ok (map (fun q => handle t (p ++ q)) (preorder s)) /\
    bp_subtree_post_list lk B bt (handle t p) = Ok (map (fun q => handle t (p ++ q)) (postorder s))) /\
  (forall p cs, subtree t p = Some (Node cs) ->
    bp_children_list lk B true bt (handle t p) = Ok (map (fun i => handle t (p ++ [i])) (seq 0 (length cs))) /\
    bp_children_list lk B false bt (handle t p) = Ok (map (fun i => handle t (p ++ [i])) (rev (seq 0 (length cs))))).
Proof.
  intros Hlk Hal H. destruct (C48_partial lk B t bt Hlk H) as (H1 & H2 & H3 & H4). destruct (H4 Hal) as (K1 & K2 & K3). auto 6.
Qed.
Example C63_ex : a_lookup lookup16 /\ aligned lookup16 512 /\ aligned lookup8 512 /\ aligned lookup8 4 /\ ~ aligned lookup8 12.
Proof. split; [now right|]. split; [now left|]. split; [now left|]. split; [now right|]. intros [H|H]; discriminate. Qed.
Example C64_ex : (let* t := mk 512 (enc ex_tree) in let* a := bp_parent lookup8 512 t 5 in let* c := bp_last_child lookup8 512 t 0 in Ok (a, c)) = Ok (Some 4, Some 11).
Proof. vm_compute. reflexivity. Qed.
Example C65_ex : (let* t := mk 512 (enc ex_tree) in bp_dfs_post_list lookup8 512 t) = Ok [2; 5; 4; 1; 9; 12; 11; 0].
Proof. vm_compute. reflexivity. Qed.

(** ** C66: unbalanced expressions. No navigation function called with the position of an opening
    parenthesis panics, whatever the rest of the expression is. *)
Definition no_panic {A} (r : res A) : Prop := exists a, r = Ok a.
Section Unbalanced.
Variables (lk : lookup) (B : N) (l : list bool) (bt : bptree).
Hypothesis Hlk : a_lookup lk.
Hypothesis Hal : aligned lk B.
Hypothesis Hb : built_from B l bt.
Hypothesis Hfit : (Z.of_N (lenN l) + 2 <= 9223372036854775807)%Z.
Hypothesis Hne : l <> [].
Lemma np_fwd i d : (Z.abs d <= 2)%Z -> no_panic (bp_fwd_search lk B bt i d).
Proof. intros Hd. destruct (C41_partial lk B l bt i d Hlk Hb Hne ltac:(lia)) as (o & E & _). now exists o. Qed.
Lemma np_bwd i d : (Z.abs d + Z.of_N (lenN l) <= 9223372036854775807)%Z -> exists o, bp_bwd_search lk B bt i d = Ok o /\ match o with Some j => j < i /\ i < lenN l | None => True end.
Proof.
  intros Hd. destruct (N.ltb_spec i (lenN l)) as [Hi|Hi].
  - destruct (C42_partial lk B l bt i d Hlk Hb Hal Hi Hd) as (o & E & Ho). exists o. split; [auto|]. destruct o; cbn in Ho; [|exact I]. lia.
  - rewrite (C42_out_of_range lk B l bt i d Hb Hi). exists None. auto.
Qed.
Lemma np_close i : exists o, bp_close lk B bt i = Ok o /\ match o with Some j => i < j /\ j < lenN l | None => True end.
Proof.
  unfold bp_close. destruct (_ <=? i); [exists None; auto|]. destruct (C41_partial lk B l bt i (-1) Hlk Hb Hne ltac:(lia)) as (o & E & Ho). exists o. split; [auto|]. destruct o; cbn in Ho; [|exact I]. lia.
Qed.
Lemma np_open i : no_panic (bp_open lk B bt i).
Proof. unfold bp_open. destruct (_ <=? i); [eexists; reflexivity|]. destruct (np_bwd i (-1) ltac:(lia)) as (o & E & _). now exists o. Qed.
Lemma np_assert i : nthN false l i = true -> bp_assert_node bt i = Ok tt.
Proof.
  intros Hi. destruct (built_good _ _ _ Hb) as (bv & G & Hl & Hlen). unfold bp_assert_node. rewrite (rs_get_ok bv) by apply G. rewrite Hl.
  assert (Hi' : i < lenN l) by (destruct (N.ltb_spec i (lenN l)); [auto|rewrite nthN_overflow in Hi by auto; discriminate]). rewrite (getN_ok false) by auto. rewrite Hi. reflexivity.
Qed.
Lemma np_get i : exists o, rs_get (bp_vec bt) i = Ok o.
Proof. destruct (built_good _ _ _ Hb) as (bv & G & Hl & Hlen). rewrite (rs_get_ok bv) by apply G. eauto. Qed.
Lemma np_rank1 i : rs_rank1 (bp_vec bt) i = Ok (rank_spec true l i).
Proof. destruct (built_good _ _ _ Hb) as (bv & G & Hl & Hlen). rewrite (rs_rank1_bits bv) by apply G. now rewrite Hl. Qed.
Lemma np_rank0 i : rs_rank0 (bp_vec bt) i = Ok (rank_spec false l i).
Proof. destruct (built_good _ _ _ Hb) as (bv & G & Hl & Hlen). rewrite <- Hl, bits_rank. unfold rs_rank0. now rewrite (rs_rank_ok bv) by apply G. Qed.
End Unbalanced.

Theorem C66_no_panic lk B l bt node other : a_lookup lk -> aligned lk B -> built_from B l bt -> (Z.of_N (lenN l) + 2 <= 9223372036854775807)%Z ->
  nthN false l node = true -> nthN false l other = true ->
  no_panic (bp_parent lk B bt node) /\ no_panic (bp_first_child bt node) /\ no_panic (bp_last_child lk B bt node) /\
  no_panic (bp_next_sibling lk B bt node) /\ no_panic (bp_previous_sibling lk B bt node) /\ no_panic (bp_node_index bt node) /\
  no_panic (bp_is_leaf bt node) /\ no_panic (bp_depth bt node) /\ no_panic (bp_subtree_size lk B bt node) /\ no_panic (bp_size bt) /\
  no_panic (bp_is_ancestor lk B bt node other) /\ no_panic (bp_level_next lk B bt node) /\ no_panic (bp_level_prev lk B bt node) /\
  (forall k, (Z.of_N k + Z.of_N (lenN l) <= 9223372036854775807)%Z ->
    no_panic (bp_level_ancestor lk B bt node k) /\ no_panic (bp_level_leftmost lk B bt k) /\ no_panic (bp_level_rightmost lk B bt k)).
Proof.
  intros Hlk Hal Hb Hfit Hn Ho.
  assert (Hin : node < lenN l) by (destruct (N.ltb_spec node (lenN l)); [auto|rewrite nthN_overflow in Hn by auto; discriminate]).
  assert (Hne : l <> []) by (intros ->; cbn in Hin; lia).
  pose proof (np_assert B l bt Hb) as HA. pose proof (np_get B l bt Hb) as HG. pose proof (np_close lk B l bt Hlk Hb Hfit Hne) as HC.
  pose proof (np_open lk B l bt Hlk Hal Hb Hfit) as HO. pose proof (np_fwd lk B l bt Hlk Hb Hfit Hne) as HF. pose proof (np_bwd lk B l bt Hlk Hal Hb) as HBw.
  pose proof (np_rank1 B l bt Hb) as HR1. pose proof (np_rank0 B l bt Hb) as HR0.
  assert (Hlen : rlen (bp_vec bt) = lenN l) by (destruct (built_good _ _ _ Hb) as (bv & G & Hl & <-); apply (good_len _ _ (bg_rs _ _ _ G))).
  assert (HU : exists b, rs_get_unchecked (bp_vec bt) node = Ok b).
  { destruct (built_good _ _ _ Hb) as (bv & G & Hl & Hlb). rewrite (rs_get_unchecked_ok bv); [eauto|apply G|apply G|]. now rewrite Hlb. }
  destruct HU as (ub & HU). destruct (HG (node + 1)) as (o1 & HG1). destruct (HC node) as (c & Ec & Hc).
  assert (Hi64 : forall k, (Z.of_N k + Z.of_N (lenN l) <= 9223372036854775807)%Z -> as_i64 k = Z.of_N k).
  { intros k Hk. unfold as_i64. destruct (N.ltb_spec k (2 ^ 63)) as [|Hb']; [auto|]. change (2 ^ 63) with 9223372036854775808 in Hb'. lia. }
  unfold no_panic in *. repeat apply conj.
  - unfold bp_parent, bp_enclose. rewrite HA by auto. cbn [bind]. rewrite Hlen. destruct (N.leb_spec (lenN l) node); [eauto|]. rewrite HU. cbn [bind]. destruct (ub =? 1); [destruct (HBw node (-1)%Z ltac:(lia)) as (o & E & _)|destruct (HBw node (-2)%Z ltac:(lia)) as (o & E & _)]; rewrite E; eauto.
  - unfold bp_first_child. rewrite HA by auto. cbn [bind]. rewrite HG1. cbn [bind]. eauto.
  - unfold bp_last_child. rewrite HA by auto. cbn [bind]. rewrite HG1. cbn [bind]. destruct o1 as [b|]; [|eauto]. destruct (b =? 1); [|eauto]. rewrite Ec. cbn [bind]. destruct c as [c|]; [|eauto]. rewrite sub_ok by lia. cbn [bind]. apply HO.
  - unfold bp_next_sibling. rewrite HA by auto. cbn [bind]. rewrite Ec. cbn [bind]. destruct c as [c|]; [|eauto]. destruct (HG (c + 1)) as (o & ->). cbn [bind]. eauto.
  - unfold bp_previous_sibling. rewrite HA by auto. cbn [bind]. destruct (node =? 0); [eauto|]. destruct (HG (node - 1)) as (o & ->). cbn [bind]. destruct o as [b|]; [|eauto]. destruct (b =? 0); [apply HO|eauto].
  - unfold bp_node_index. rewrite HA by auto. cbn [bind]. rewrite HR1. eauto.
  - unfold bp_is_leaf. rewrite HA by auto. cbn [bind]. rewrite HG1. cbn [bind]. eauto.
  - unfold bp_depth, bp_excess. rewrite HA by auto. cbn [bind]. rewrite Hlen. destruct (N.ltb_spec node (lenN l)); [|lia]. cbn [assert bind]. rewrite HR1, HR0. cbn [bind]. eauto.
  - unfold bp_subtree_size. rewrite HA by auto. cbn [bind]. rewrite Ec. cbn [bind]. destruct c as [c|]; [|eauto]. rewrite !HR1. cbn [bind]. rewrite sub_ok; [cbn [bind]; eauto|]. unfold rank_spec. rewrite <- (firstn_skipn (N.to_nat node) (takeN c l)), count_app. unfold takeN. rewrite firstn_firstn. replace (Nat.min (N.to_nat node) (N.to_nat c)) with (N.to_nat node) by lia. lia.
  - unfold bp_size. rewrite HR1. eauto.
  - unfold bp_is_ancestor. rewrite !HA by auto. cbn [bind]. rewrite Ec. cbn [bind]. eauto.
  - unfold bp_level_next. rewrite Ec. cbn [bind]. destruct c as [c|]; [|eauto]. apply HF. lia.
  - unfold bp_level_prev. destruct (HBw node 1%Z ltac:(lia)) as (o & E & _). rewrite E. cbn [bind]. destruct o as [o|]; [|eauto]. apply HO.
  - intros k Hk. repeat apply conj.
    + unfold bp_level_ancestor. destruct (k =? 0); [eauto|]. rewrite Hi64 by auto. rewrite i64_ok by lia. cbn [bind]. destruct (HBw node (- Z.of_N k)%Z ltac:(lia)) as (o & E & _). eauto.
    + unfold bp_level_leftmost. destruct (k =? 0); [eauto|]. rewrite Hi64 by auto. destruct (C41_partial lk B l bt 0 (Z.of_N k) Hlk Hb Hne ltac:(lia)) as (o & E & _). eauto.
    + unfold bp_level_rightmost, bp_size. rewrite HR1. cbn [bind]. assert (Hpos : 1 <= rank_spec true l (rlen (bp_vec bt))).
      { unfold rank_spec. rewrite takeN_all by lia. assert (Hx : In true l) by (rewrite <- Hn; now apply In_nthN). clear - Hx. induction l as [|x l IH]; [destruct Hx|]. destruct Hx as [->|Hx]; cbn; [lia|]. specialize (IH Hx). destruct x; cbn; lia. }
      rewrite sub_ok by lia. cbn [bind]. rewrite Hi64 by auto. match goal with |- context [bp_bwd_search _ _ _ ?i ?d] => destruct (HBw i d ltac:(lia)) as (o & E & _) end. rewrite E. cbn [bind]. destruct o as [o|]; [|eauto]. apply HO.
Qed.
(** Without an opening parenthesis there is no node to start from, and [level_rightmost] panics. *)
Theorem C66_no_node lk B l bt k : built_from B l bt -> ~ In true l -> bp_level_rightmost lk B bt k = Panic.
Proof.
  intros Hb Hn. unfold bp_level_rightmost, bp_size. rewrite (np_rank1 B l bt Hb). assert (E : rank_spec true l (rlen (bp_vec bt)) = 0).
  { unfold rank_spec. generalize (rlen (bp_vec bt)) as n. intros n. assert (Hn' : ~ In true (takeN n l)) by (intros H; apply Hn; rewrite <- (firstn_skipn (N.to_nat n) l); apply in_or_app; left; exact H). revert Hn'. generalize (takeN n l) as m. clear.
    induction m as [|x m IH]; intros H; [reflexivity|]. destruct x; [exfalso; apply H; now left|]. cbn. rewrite IH; [reflexivity|]. intros H'. apply H. now right. }
  rewrite E. reflexivity.
Qed.
Example C66_ex : (let* t := mk 4 ex_unbal in let* a := bp_parent lookup8 4 t 8 in let* b := bp_last_child lookup8 4 t 6 in let* c := bp_level_rightmost lookup8 4 t 1 in let* d := bp_subtree_size lookup8 4 t 7 in Ok (a, b, c, d))
  = Ok (Some 7, None, None, None) /\ nthN false ex_unbal 6 = true /\ (let* t := mk 4 [false; false] in bp_level_rightmost lookup8 4 t 0) = Panic.
Proof. vm_compute. auto. Qed.

(** The post-order of [mis_tree] with blocks of 12 lists nodes 17 and 18 twice and omits 12 and 13. *)
Theorem C48_refuted : exists t bt, represents 12 t bt /\ bp_dfs_post_list lookup8 12 bt <> Ok (map (handle t) (postorder t)).
Proof.
  destruct (mk 12 (enc mis_tree)) as [bt| |] eqn:E; [|vm_compute in E; discriminate E|vm_compute in E; discriminate E].
  exists mis_tree, bt. split; [now apply mis_represents|].
  assert (H : (let* bt := mk 12 (enc mis_tree) in bp_dfs_post_list lookup8 12 bt) = Ok [15; 19; 18; 17; 18; 17; 14; 11; 10; 9; 8; 7; 6; 5; 4; 3; 2; 1; 0]) by (vm_compute; reflexivity).
  rewrite E in H. cbn [bind] in H. rewrite H. vm_compute. discriminate.
Qed.
