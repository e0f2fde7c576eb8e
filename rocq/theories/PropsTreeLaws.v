(** * Property C143: laws between the tree functions, for expressions that need not be balanced.
    Every statement relates answers of the modelled functions to each other and does not describe the tree. *)
From Coq Require Import Sorting.Sorted.
From Verif Require Import Base Spec BaseFacts WordFacts BitVecModel BitVecProofs RsVecModel RsVecProofs
  BpModel BpExcess BpLookup BpMmt BpSearch BpBlock BpTreeSpec BpTreeFacts BpTreeProofs PropsBp PropsUnbalanced.

(** [k] steps of [parent] lead from [b] to [a]. *)
Fixpoint chain (lk : lookup) (B : N) (bt : bptree) (k : nat) (b a : N) : Prop :=
  match k with O => a = b | S k => exists c, bp_parent lk B bt b = Ok (Some c) /\ chain lk B bt k c a end.

Lemma res_some {A} (m : res (option A)) o (P : A -> Prop) : m = Ok o -> (forall x, o = Some x <-> P x) -> forall x, m = Ok (Some x) <-> P x.
Proof. intros -> H x. rewrite <- H. split; [intros E; now injection E|now intros ->]. Qed.
Lemma res_none {A} (m : res (option A)) o (P : A -> Prop) : m = Ok o -> (forall x, o = Some x <-> P x) -> (forall x, ~ P x) -> m = Ok None.
Proof. intros -> H N. destruct o as [x|]; [|auto]. exfalso. apply (N x). now apply H. Qed.
Lemma res_eq {A} (m m' : res (option A)) o o' (P P' : A -> Prop) : m = Ok o -> (forall x, o = Some x <-> P x) -> m' = Ok o' -> (forall x, o' = Some x <-> P' x) -> (forall x, P x <-> P' x) -> m = m'.
Proof.
  intros -> H -> H' E. f_equal. destruct o as [x|].
  - symmetry. apply H', E, H. reflexivity.
  - destruct o' as [x|]; [|auto]. assert (@None A = Some x) by (apply H, E, H'; reflexivity). discriminate.
Qed.

Lemma outwards_S l : forall k i p, outwards l (S k) i p <-> exists c, outwards l k i c /\ inside l p c.
Proof.
  induction k as [|k IH]; intros i p.
  - cbn [outwards]. split; [intros (q & H & ->); exists i; auto|intros (c & -> & H); exists p; auto].
  - split.
    + intros (q & H & H'). apply IH in H' as (c & H1 & H2). exists c. split; [exists q; auto|auto].
    + intros (c & (q & H1 & H2) & H3). exists q. split; [auto|]. apply IH. exists c. auto.
Qed.
Lemma outwards_open l k i c : nthN false l i = true -> outwards l k i c -> nthN false l c = true.
Proof. intros Hi. destruct k as [|k]; [cbn [outwards]; now intros ->|]. rewrite outwards_S. intros (q & _ & H). apply inside_ex in H. apply H. Qed.

Section Laws.
Variables (lk : lookup) (B : N) (l : list bool) (bt : bptree).
Hypothesis Hlk : a_lookup lk.
Hypothesis Hal : aligned lk B.
Hypothesis Hb : built_from B l bt.
Hypothesis Hfit : (Z.of_N (lenN l) + 2 <= 9223372036854775807)%Z.

Lemma parent_iff b : nthN false l b = true -> forall p, bp_parent lk B bt b = Ok (Some p) <-> inside l p b.
Proof using All. intros H. destruct (C133_backward lk B l bt b Hlk Hal Hb Hfit H) as ((o & E & Ho) & _). now apply (res_some _ o). Qed.
Lemma close_iff a : nthN false l a = true -> forall j, bp_close lk B bt a = Ok (Some j) <-> exists s, tree_at l a s /\ j + 1 = a + lenN (enc s).
Proof using All. intros H. destruct (C133_forward lk B l bt a a Hlk Hb Hfit H H) as ((o & E & Ho) & _). now apply (res_some _ o). Qed.

(** Between the end of a subtree and the next node of its level no closing parenthesis returns to that level, and conversely. *)
Lemma level_pair a t b : tree_at l a t -> nthN false l b = true -> a + lenN (enc t) <= b -> excess_before l b = excess_before l a ->
  (forall m, a + lenN (enc t) <= m -> m < b -> nthN false l m = true -> excess_before l m <> excess_before l a) <->
  (forall c, a + lenN (enc t) <= c -> c < b -> nthN false l c = false -> excess_before l (c + 1) <> excess_before l a).
Proof using.
  intros Ht Hob Hle Eb. destruct (tree_at_ex _ _ _ Ht) as (L & _ & _ & E & _). pose proof (any_in l b Hob) as Lb. set (e := a + lenN (enc t)) in *. split.
  - intros H c C1 C2 C3 C4. rewrite ex_succ, C3 in C4 by lia. cbn [paren] in C4.
    assert (Up : forall m, e <= m -> m <= c -> (excess_before l m <= excess_before l a)%Z).
    { intros m. pattern m. apply N_ind1; clear m; [intros; replace 0 with e by lia; lia|]. intros m IH M1 M2. destruct (N.eq_dec e (m + 1)) as [<-|]; [lia|]. specialize (IH ltac:(lia) ltac:(lia)). rewrite ex_succ by lia.
      destruct (nthN false l m) eqn:Em; cbn [paren]; [|lia]. specialize (H m ltac:(lia) ltac:(lia) Em). lia. }
    specialize (Up c C1 ltac:(lia)). lia.
  - intros H m M1 M2 M3 M4. pose proof (open_excess l m M3) as Om.
    assert (Up : forall k, m + 1 <= k -> k <= b -> (excess_before l a < excess_before l k)%Z).
    { intros k. pattern k. apply N_ind1; clear k; [lia|]. intros k IH K1 K2. destruct (N.eq_dec k m) as [->|]; [lia|]. specialize (IH ltac:(lia) ltac:(lia)).
      destruct (nthN false l k) eqn:Ek; [rewrite ex_succ, Ek by lia; cbn [paren]; lia|]. specialize (H k ltac:(lia) ltac:(lia) Ek). rewrite ex_succ, Ek in * by lia. cbn [paren] in *. lia. }
    specialize (Up b ltac:(lia) ltac:(lia)). lia.
Qed.

Theorem laws_inverse a b : nthN false l a = true -> nthN false l b = true ->
  (forall j, j < lenN l -> nthN false l j = false -> bp_close lk B bt a = Ok (Some j) <-> bp_open lk B bt j = Ok (Some a)) /\
  (bp_next_sibling lk B bt a = Ok (Some b) <-> bp_previous_sibling lk B bt b = Ok (Some a)) /\
  (bp_level_next lk B bt a = Ok (Some b) <-> bp_level_prev lk B bt b = Ok (Some a)).
Proof using All.
  intros Ha Hbb. destruct (C133_forward lk B l bt a b Hlk Hb Hfit Ha Hbb) as (_ & _ & _ & _ & _ & (o1 & E1 & H1) & (o2 & E2 & H2) & _).
  destruct (C133_backward lk B l bt b Hlk Hal Hb Hfit Hbb) as (_ & (o3 & E3 & H3) & _ & (o4 & E4 & H4) & _).
  split; [|split].
  - intros j J1 J2. rewrite (close_iff a Ha). destruct (C133_parentheses lk B l bt j Hlk Hal Hb Hfit J1) as (H & _). destruct (H J2) as (o & E & Ho). rewrite (res_some _ _ _ E Ho). reflexivity.
  - rewrite (res_some _ _ _ E1 H1), (res_some _ _ _ E3 H3). split; [intros (t & A & C & _); exists t; auto|intros (t & A & C); exists t; auto].
  - rewrite (res_some _ _ _ E2 H2), (res_some _ _ _ E4 H4). split.
    + intros (t & T & K1 & K2 & K3 & K4). pose proof (len_enc2 t). destruct (tree_at_ex _ _ _ T) as (L & _ & C0 & E & _). exists (a + lenN (enc t) - 1), t. replace (a + lenN (enc t) - 1 + 1) with (a + lenN (enc t)) by lia.
      split; [lia|]. split; [auto|]. split; [lia|]. split; [|auto]. intros c C1 C2 C3. rewrite K3. apply (proj1 (level_pair a t b T K2 K1 K3)); auto. lia.
    + intros (c & t & C1 & C2 & C3 & C4 & T & C5). destruct (tree_at_ex _ _ _ T) as (L & _ & C0 & E & _). rewrite C5 in C3. exists t. split; [auto|]. split; [lia|]. split; [auto|]. assert (Eb : excess_before l b = excess_before l a) by lia. split; [auto|].
      apply (level_pair a t b T Hbb ltac:(lia) Eb). intros c' D1 D2 D3. rewrite <- Eb. apply C4; auto. lia.
Qed.

Lemma inside_self a : nthN false l a = true -> inside l a (a + 1).
Proof using.
  intros Ha. pose proof (any_in l a Ha). apply inside_ex. split; [lia|]. split; [lia|]. split; [auto|]. split; [auto|]. intros k K1 K2. assert (k = a + 1) by lia. subst k. rewrite (open_excess l a Ha). lia.
Qed.
Lemma inside_prev p c t : inside l p (c + lenN (enc t)) -> tree_at l c t -> inside l p c.
Proof using.
  intros H Ht. apply inside_ex in H. apply inside_ex. destruct H as (A & L & Hp & E & M). destruct (tree_at_ex _ _ _ Ht) as (L' & Hc & Hcl & E' & M'). pose proof (len_enc2 t) as L2. pose proof (open_excess l p Hp) as Op.
  destruct (N.ltb_spec p c) as [P|P].
  - split; [auto|]. split; [lia|]. split; [auto|]. split; [lia|]. intros k K1 K2. apply M; lia.
  - exfalso. destruct (N.eq_dec p c) as [->|]; [lia|]. specialize (M' p ltac:(lia) ltac:(lia)). specialize (M (c + lenN (enc t)) ltac:(lia) ltac:(lia)). lia.
Qed.

Theorem laws_family a b : nthN false l a = true -> nthN false l b = true ->
  (bp_first_child bt a = Ok (Some b) -> bp_parent lk B bt b = Ok (Some a) /\ bp_previous_sibling lk B bt b = Ok None) /\
  (bp_last_child lk B bt a = Ok (Some b) -> bp_parent lk B bt b = Ok (Some a) /\ bp_next_sibling lk B bt b = Ok None) /\
  (bp_next_sibling lk B bt a = Ok (Some b) -> bp_parent lk B bt a = bp_parent lk B bt b /\ bp_level_next lk B bt a = Ok (Some b)) /\
  (bp_level_next lk B bt a = Ok (Some b) -> bp_depth bt a = bp_depth bt b) /\
  (exists r, bp_children_list lk B true bt a = Ok r /\ (In b r <-> bp_parent lk B bt b = Ok (Some a))) /\
  (exists d e, bp_depth bt a = Ok d /\ bp_depth bt b = Ok e /\ (bp_parent lk B bt b = Ok (Some a) -> e = if (0 <=? excess_before l a)%Z then d + 1 else 0)).
Proof using All.
  intros Ha Hbb. destruct (C133_forward lk B l bt a b Hlk Hb Hfit Ha Hbb) as (_ & _ & _ & Efc & _ & (on & En & Hn) & (oln & Eln & Hln) & _ & Eda & (r & Er & _ & Hr) & _).
  destruct (C133_forward lk B l bt b b Hlk Hb Hfit Hbb Hbb) as (_ & _ & _ & _ & _ & (onb & Enb & Hnb) & _ & _ & Edb & _).
  destruct (C133_backward lk B l bt b Hlk Hal Hb Hfit Hbb) as ((op & Ep & Hp) & (os & Es & Hs) & _).
  destruct (C133_backward lk B l bt a Hlk Hal Hb Hfit Ha) as ((opa & Epa & Hpa) & _ & (ol & El & Hl) & _).
  split; [|split; [|split; [|split; [|split]]]].
  - rewrite Efc. destruct (nthN false l (a + 1)) eqn:E1; [|discriminate]. intros H. injection H as <-. split; [apply parent_iff; [auto|now apply inside_self]|].
    apply (res_none _ _ _ Es Hs). intros s (t & T & E). destruct (tree_at_ex _ _ _ T) as (_ & _ & C & _). rewrite <- E in C. replace (a + 1 - 1) with a in C by lia. congruence.
  - rewrite (res_some _ _ _ El Hl). intros (cs & s & (u & v & E & Eu) & ->). change (flat_map enc cs) with (encs cs) in *. rewrite enc_node, encs_app, encs_cons, app_nil_r in E. cbn [app] in E.
    assert (Ts : tree_at l (a + 1 + lenN (encs cs)) s).
    { exists (u ++ true :: encs cs), (false :: v). split; [rewrite E; repeat rewrite <- app_assoc; cbn [app]; repeat rewrite <- app_assoc; reflexivity|]. rewrite lenN_app, lenN_cons. lia. }
    split.
    + apply parent_iff; [auto|]. exists u, cs, (enc s ++ false :: v). split; [rewrite E; repeat rewrite <- app_assoc; cbn [app]; repeat rewrite <- app_assoc; reflexivity|]. split; [auto|reflexivity].
    + apply (res_none _ _ _ Enb Hnb). intros x (t & T & -> & X). rewrite (tree_at_fun _ _ _ _ T Ts) in X.
      replace (a + 1 + lenN (encs cs) + lenN (enc s)) with (lenN (u ++ true :: encs cs ++ enc s) + 0) in X by (rewrite lenN_app, lenN_cons, lenN_app; lia).
      assert (E2 : l = (u ++ true :: encs cs ++ enc s) ++ false :: v) by (rewrite E; repeat rewrite <- app_assoc; cbn [app]; repeat rewrite <- app_assoc; reflexivity).
      rewrite E2, nthN_app_ge in X. discriminate.
  - intros H. pose proof H as H0. rewrite (res_some _ _ _ En Hn) in H. destruct H as (t & T & -> & _). split.
    + apply (res_eq _ _ _ _ _ _ Epa Hpa Ep Hp). intros p. split; [intros I; now apply inside_next|intros I; now apply (inside_prev p a t)].
    + apply (res_some _ _ _ Eln Hln). destruct (tree_at_ex _ _ _ T) as (_ & _ & _ & E & _). exists t. split; [auto|]. split; [lia|]. split; [auto|]. split; [auto|]. intros m M1 M2. lia.
  - intros H. rewrite (res_some _ _ _ Eln Hln) in H. destruct H as (t & _ & _ & _ & E & _). rewrite Eda, Edb. now rewrite E.
  - exists r. split; [auto|]. rewrite Hr, (parent_iff b Hbb). tauto.
  - exists (Z.to_N (excess_before l a)), (Z.to_N (excess_before l b)). split; [auto|]. split; [auto|]. rewrite (parent_iff b Hbb). intros I. apply inside_ex in I. destruct I as (_ & _ & _ & E & _). rewrite (open_excess l a Ha) in E.
    destruct (Z.leb_spec 0 (excess_before l a)); lia.
Qed.

Lemma chain_le k : forall a s b, tree_at l a s -> nthN false l b = true -> chain lk B bt k b a -> a <= b /\ b < a + lenN (enc s).
Proof using All.
  induction k as [|k IH]; intros a s b T Hbb H; cbn [chain] in H; [subst; pose proof (len_enc2 s); lia|]. destruct H as (c & H & H'). apply parent_iff in H; [|auto]. apply inside_ex in H. destruct H as (H1 & H2 & H3 & H4 & H5).
  destruct (IH a s c T H3 H') as [A1 A2]. split; [lia|]. destruct (N.ltb_spec b (a + lenN (enc s))) as [|Le]; [auto|exfalso]. destruct (tree_at_ex _ _ _ T) as (_ & _ & _ & E & M). specialize (H5 (a + lenN (enc s)) A2 Le).
  destruct (N.eq_dec c a) as [->|]; [lia|]. specialize (M c ltac:(lia) A2). lia.
Qed.
Lemma le_chain a s : tree_at l a s -> forall n b, (N.to_nat b < n)%nat -> nthN false l b = true -> a <= b -> b < a + lenN (enc s) -> exists k, chain lk B bt k b a.
Proof using All.
  intros T. destruct (tree_at_ex _ _ _ T) as (L & Ha & _ & E & M). induction n as [|n IH]; intros b Hn Hbb A1 A2; [lia|]. destruct (N.eq_dec a b) as [->|]; [exists O; reflexivity|].
  pose proof (M b ltac:(lia) A2) as Mb. destruct (is_bwd_total l b (-1)) as (o & Ho). pose proof (bwd_inside l b o ltac:(lia) Ho) as HI. destruct o as [p|].
  - assert (I : inside l p b) by now apply HI. pose proof I as I0. apply inside_ex in I0. destruct I0 as (P1 & P2 & P3 & P4 & P5). rewrite (open_excess l p P3) in P4.
    assert (a <= p). { destruct (N.leb_spec a p); [auto|exfalso]. specialize (P5 a ltac:(lia) ltac:(lia)). lia. }
    destruct (IH p ltac:(lia) P3 ltac:(lia) ltac:(lia)) as (k & Hk). exists (S k). cbn [chain]. exists p. split; [now apply parent_iff|auto].
  - exfalso. cbn [is_bwd] in Ho. destruct (ex_ivt l a (b - a) (excess_before l b - 1 - excess_before l a)) as (j & J1 & J2); [replace (a + (b - a)) with b by lia; lia|].
    destruct (N.eq_dec j b) as [->|]; [lia|]. apply (Ho j); lia.
Qed.

Theorem laws_ancestors a b : nthN false l a = true -> nthN false l b = true ->
  (bp_is_ancestor lk B bt a b = Ok (Some true) <-> (exists j, bp_close lk B bt a = Ok (Some j)) /\ exists k, chain lk B bt k b a) /\
  (bp_is_ancestor lk B bt a b = Ok (Some false) <-> (exists j, bp_close lk B bt a = Ok (Some j)) /\ ~ exists k, chain lk B bt k b a) /\
  (forall k, N.of_nat k + lenN l <= 9223372036854775807 -> (bp_level_ancestor lk B bt b (N.of_nat k) = Ok (Some a) <-> chain lk B bt k b a)).
Proof using All.
  intros Ha Hbb. destruct (C133_forward lk B l bt a b Hlk Hb Hfit Ha Hbb) as (_ & _ & (oa & Ea & Hoa) & _).
  assert (HT : forall s, tree_at l a s -> ((exists k, chain lk B bt k b a) <-> (a <=? b) && (b <? a + lenN (enc s)) = true)).
  { intros s T. rewrite Bool.andb_true_iff, N.leb_le, N.ltb_lt. split; [intros (k & H); now apply (chain_le k)|]. intros [A1 A2]. apply (le_chain a s T (S (N.to_nat b))); auto. }
  assert (HC : forall s, tree_at l a s -> exists j, bp_close lk B bt a = Ok (Some j)).
  { intros s T. pose proof (len_enc2 s). exists (a + lenN (enc s) - 1). apply close_iff; [auto|]. exists s. split; [auto|lia]. }
  rewrite !(res_some _ _ _ Ea Hoa). split; [|split].
  - split.
    + intros (s & T & E). split; [eauto|]. now apply (HT s).
    + intros ((j & Hj) & H). apply close_iff in Hj; [|auto]. destruct Hj as (s & T & _). exists s. split; [auto|]. symmetry. now apply HT.
  - split.
    + intros (s & T & E). split; [eauto|]. rewrite (HT s T), <- E. discriminate.
    + intros ((j & Hj) & H). apply close_iff in Hj; [|auto]. destruct Hj as (s & T & _). exists s. split; [auto|]. rewrite (HT s T) in H. destruct ((a <=? b) && (b <? a + lenN (enc s))); [exfalso; now apply H|auto].
  - intros k Hk. destruct (C133_backward lk B l bt b Hlk Hal Hb Hfit Hbb) as (_ & _ & _ & _ & H). destruct (H k Hk) as (o & E & Ho). rewrite (res_some _ _ _ E Ho).
    clear - Hbb Hlk Hal Hb Hfit. revert b Hbb. induction k as [|k IH]; intros b Hbb; cbn [outwards chain]; [reflexivity|]. split.
    + intros (q & I & O). exists q. split; [now apply parent_iff|]. apply IH; [apply inside_ex in I; apply I|auto].
    + intros (q & I & O). apply parent_iff in I; [|auto]. exists q. split; [auto|]. apply IH; [apply inside_ex in I; apply I|auto].
Qed.
End Laws.

(** ** C143 *)
Theorem C143_inverse lk B l bt a b :
  a_lookup lk -> aligned lk B -> built_from B l bt -> (Z.of_N (lenN l) + 2 <= 9223372036854775807)%Z -> nthN false l a = true -> nthN false l b = true ->
  (forall j, j < lenN l -> nthN false l j = false -> bp_close lk B bt a = Ok (Some j) <-> bp_open lk B bt j = Ok (Some a)) /\
  (bp_next_sibling lk B bt a = Ok (Some b) <-> bp_previous_sibling lk B bt b = Ok (Some a)) /\
  (bp_level_next lk B bt a = Ok (Some b) <-> bp_level_prev lk B bt b = Ok (Some a)).
Proof. intros. now apply (laws_inverse lk B l bt). Qed.
Theorem C143_family lk B l bt a b :
  a_lookup lk -> aligned lk B -> built_from B l bt -> (Z.of_N (lenN l) + 2 <= 9223372036854775807)%Z -> nthN false l a = true -> nthN false l b = true ->
  (bp_first_child bt a = Ok (Some b) -> bp_parent lk B bt b = Ok (Some a) /\ bp_previous_sibling lk B bt b = Ok None) /\
  (bp_last_child lk B bt a = Ok (Some b) -> bp_parent lk B bt b = Ok (Some a) /\ bp_next_sibling lk B bt b = Ok None) /\
  (bp_next_sibling lk B bt a = Ok (Some b) -> bp_parent lk B bt a = bp_parent lk B bt b /\ bp_level_next lk B bt a = Ok (Some b)) /\
  (bp_level_next lk B bt a = Ok (Some b) -> bp_depth bt a = bp_depth bt b) /\
  (exists r, bp_children_list lk B true bt a = Ok r /\ (In b r <-> bp_parent lk B bt b = Ok (Some a))) /\
  (exists d e, bp_depth bt a = Ok d /\ bp_depth bt b = Ok e /\ (bp_parent lk B bt b = Ok (Some a) -> e = if (0 <=? excess_before l a)%Z then d + 1 else 0)).
Proof. intros. now apply (laws_family lk B l bt). Qed.
Theorem C143_ancestors lk B l bt a b :
  a_lookup lk -> aligned lk B -> built_from B l bt -> (Z.of_N (lenN l) + 2 <= 9223372036854775807)%Z -> nthN false l a = true -> nthN false l b = true ->
  (bp_is_ancestor lk B bt a b = Ok (Some true) <-> (exists j, bp_close lk B bt a = Ok (Some j)) /\ exists k, chain lk B bt k b a) /\
  (bp_is_ancestor lk B bt a b = Ok (Some false) <-> (exists j, bp_close lk B bt a = Ok (Some j)) /\ ~ exists k, chain lk B bt k b a) /\
  (forall k, N.of_nat k + lenN l <= 9223372036854775807 -> (bp_level_ancestor lk B bt b (N.of_nat k) = Ok (Some a) <-> chain lk B bt k b a)).
Proof. intros. now apply (laws_ancestors lk B l bt). Qed.

(** ")(()())(": nodes 1, 2, 4 and 7; node 7 is not closed and 0 closes nothing. Node 1 has depth 0 and so do its children. *)
Definition ex_laws : list bool := [false; true; true; false; true; false; false; true].
Example C143_ex :
  aligned lookup8 4 /\ (excess_before ex_laws 1 = -1)%Z /\
  (let* t := mk 4 ex_laws in let* a := bp_next_sibling lookup8 4 t 2 in let* b := bp_previous_sibling lookup8 4 t 4 in let* c := bp_level_next lookup8 4 t 1 in let* d := bp_level_prev lookup8 4 t 7 in
   let* e := bp_parent lookup8 4 t 4 in let* f := bp_children_list lookup8 4 true t 1 in let* g := bp_depth t 1 in let* h := bp_depth t 4 in let* i := bp_is_ancestor lookup8 4 t 1 4 in let* j := bp_is_ancestor lookup8 4 t 7 7 in
   Ok ([a; b; c; d; e], f, g, h, i, j)) = Ok ([Some 4; Some 2; Some 7; Some 1; Some 1], [2; 4], 0, 0, Some true, None).
Proof. split; [right; reflexivity|]. split; vm_compute; reflexivity. Qed.
