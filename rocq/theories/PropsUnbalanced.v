(** * Property C133: parentheses and nodes of expressions that need not be balanced. *)
From Coq Require Import Sorting.Sorted.
From Verif Require Import Base Spec BaseFacts WordFacts BitVecModel BitVecProofs RsVecModel RsVecProofs RsVecSelect RsEqProofs RsIterModel RsIterProofs
  BpModel BpExcess BpLookup BpMmt BpSearch BpBlock BpTreeSpec BpTreeFacts BpTreeProofs IterFacts PropsBp PropsBitSet.

(** The piece of [l] that starts at position [i] is the encoding of the tree [s]: the parenthesis at [i]
    is an opening one, has a matching closing one, and all between them is matched. *)
Definition tree_at (l : list bool) (i : N) (s : tree) : Prop := exists a b, l = a ++ enc s ++ b /\ lenN a = i.
(** There is an opening parenthesis at [p], and between it and position [i] all is matched. *)
Definition inside (l : list bool) (p i : N) : Prop :=
  exists a cs b, l = a ++ true :: flat_map enc cs ++ b /\ lenN a = p /\ i = p + 1 + lenN (flat_map enc cs).

Lemma nthN_app_ge {A} (d : A) l m k : nthN d (l ++ m) (lenN l + k) = nthN d m k.
Proof. rewrite nthN_app. destruct (N.ltb_spec (lenN l + k) (lenN l)); [lia|]. f_equal. lia. Qed.
Lemma nthN_app_lt {A} (d : A) l m k : k < lenN l -> nthN d (l ++ m) k = nthN d l k.
Proof. intros H. rewrite nthN_app. destruct (N.ltb_spec k (lenN l)); [auto|lia]. Qed.

(** ** Runs that never fall below their start are encodings. *)
Definition low (w : list bool) (k : N) : Prop := excess_before w (lenN w) = (- Z.of_N k)%Z /\ forall p, p <= lenN w -> (- Z.of_N k <= excess_before w p)%Z.
Fixpoint runs (k : nat) (w : list bool) : Prop :=
  match k with
  | O => exists cs, w = encs cs
  | S k => exists cs w', w = encs cs ++ false :: w' /\ runs k w'
  end.
Lemma ex_cons x w p : excess_before (x :: w) (p + 1) = (paren x + excess_before w p)%Z.
Proof.
  pose proof (ex_app_ge [x] w p) as H. change ([x] ++ w) with (x :: w) in H. change (lenN [x]) with 1 in H. rewrite N.add_comm, H. f_equal.
  unfold excess_before. destruct x; reflexivity.
Qed.
Lemma runs_tree k cs w : runs k w -> runs k (enc (Node cs) ++ w).
Proof.
  destruct k; cbn [runs].
  - intros (cs' & ->). exists (Node cs :: cs'). now rewrite encs_cons.
  - intros (cs' & w' & -> & H). exists (Node cs :: cs'), w'. rewrite encs_cons, <- app_assoc. auto.
Qed.
Lemma parse w : forall k, low w (N.of_nat k) -> runs k w.
Proof.
  induction w as [|x w IH]; intros k [H1 H2].
  - change (lenN []) with 0 in H1. rewrite ex_0 in H1. destruct k; [now exists []|lia].
  - rewrite lenN_cons in H1, H2. rewrite ex_cons in H1. destruct x; cbn [paren] in *.
    + assert (R : runs (S k) w).
      { apply IH. split; [lia|]. intros p Hp. specialize (H2 (p + 1) ltac:(lia)). rewrite ex_cons in H2. cbn [paren] in H2. lia. }
      cbn [runs] in R. destruct R as (cs & w' & -> & R). replace (true :: encs cs ++ false :: w') with (enc (Node cs) ++ w') by (rewrite enc_node; cbn [app]; now rewrite <- app_assoc).
      now apply runs_tree.
    + destruct k as [|k]; [specialize (H2 (0 + 1) ltac:(lia)); rewrite ex_cons, ex_0 in H2; cbn [paren] in H2; lia|].
      cbn [runs]. exists [], w. split; [reflexivity|]. apply IH. split; [lia|]. intros p Hp. specialize (H2 (p + 1) ltac:(lia)). rewrite ex_cons in H2. cbn [paren] in H2. lia.
Qed.
Lemma parse_forest w : excess_before w (lenN w) = 0%Z -> (forall p, p <= lenN w -> (0 <= excess_before w p)%Z) -> exists cs, w = encs cs.
Proof. intros H1 H2. apply (parse w 0). split; auto. Qed.
Lemma parse_tree w : 0 < lenN w -> excess_before w (lenN w) = 0%Z -> (forall p, 0 < p -> p < lenN w -> (1 <= excess_before w p)%Z) -> exists s, w = enc s.
Proof.
  intros H0 H1 H2. destruct (parse_forest w H1) as (cs & ->).
  { intros p Hp. destruct (N.eq_dec p 0) as [->|]; [now rewrite ex_0|]. destruct (N.eq_dec p (lenN w)) as [->|]; [rewrite H1; easy|]. specialize (H2 p ltac:(lia) ltac:(lia)). lia. }
  destruct cs as [|c [|d cs]]; [cbn in H0; lia|exists c; rewrite encs_cons; now rewrite app_nil_r|exfalso].
  rewrite !encs_cons in *. pose proof (len_enc2 c). pose proof (len_enc2 d). specialize (H2 (lenN (enc c)) ltac:(lia)). rewrite !lenN_app in H2. specialize (H2 ltac:(lia)).
  rewrite ex_app_le in H2 by lia. rewrite (proj1 (enc_balanced c)) in H2. lia.
Qed.
Lemma encs_nonneg cs p : p <= lenN (encs cs) -> (0 <= excess_before (encs cs) p)%Z.
Proof.
  intros Hp. destruct (enc_balanced (Node cs)) as [_ H]. specialize (H (p + 1) ltac:(lia)). rewrite len_enc in H. specialize (H ltac:(lia)).
  rewrite enc_node in H. cbn [app] in H. rewrite ex_cons, ex_app_le in H by auto. cbn [paren] in H. lia.
Qed.

(** ** The searches. *)
Lemma is_fwd_fun l i d o o' : is_fwd l i d o -> is_fwd l i d o' -> o = o'.
Proof.
  destruct o as [j|], o' as [j'|]; cbn; auto.
  - intros (A & B & C & D) (A' & B' & C' & D'). f_equal. destruct (N.lt_trichotomy j j') as [L|[L|L]]; auto; [specialize (D' j A L)|specialize (D j' A' L)]; congruence.
  - intros (A & B & C & D) H. specialize (H j A B). congruence.
  - intros H (A & B & C & D). specialize (H j' A B). congruence.
Qed.
Lemma is_bwd_fun l i d o o' : is_bwd l i d o -> is_bwd l i d o' -> o = o'.
Proof.
  destruct o as [j|], o' as [j'|]; cbn; auto.
  - intros (A & C & D) (A' & C' & D'). f_equal. destruct (N.lt_trichotomy j j') as [L|[L|L]]; auto; [specialize (D j' L A')|specialize (D' j L A)]; congruence.
  - intros (A & C & D) H. specialize (H j A). congruence.
  - intros H (A & C & D). specialize (H j' A). congruence.
Qed.
(** A path that does not meet the level below stays above it. *)
Lemma stay_fwd l x y v : x <= y -> (v < excess_before l x)%Z -> (forall k, x < k -> k <= y -> excess_before l k <> v) -> (v < excess_before l y)%Z.
Proof.
  intros Hxy Hv H. destruct (Z.ltb_spec v (excess_before l y)) as [|Hy]; [auto|exfalso].
  destruct (ex_ivt l x (y - x) (v - excess_before l x)) as (j & Hj & Ej); [replace (x + (y - x)) with y by lia; lia|].
  destruct (N.eq_dec j x) as [->|]; [lia|]. apply (H j); lia.
Qed.
Lemma stay_bwd l x y v : x <= y -> (v < excess_before l y)%Z -> (forall k, x <= k -> k < y -> excess_before l k <> v) -> (v < excess_before l x)%Z.
Proof.
  intros Hxy Hv H. destruct (Z.ltb_spec v (excess_before l x)) as [|Hy]; [auto|exfalso].
  destruct (ex_ivt l x (y - x) (v - excess_before l x)) as (j & Hj & Ej); [replace (x + (y - x)) with y by lia; lia|].
  destruct (N.eq_dec j y) as [->|]; [lia|]. apply (H j); lia.
Qed.
Lemma cut3 {A} (l : list A) x n : x + n <= lenN l -> l = takeN x l ++ sliceN x n l ++ dropN (x + n) l.
Proof.
  intros H. unfold sliceN. rewrite <- (takeN_dropN x l) at 1. f_equal. rewrite <- (takeN_dropN n (dropN x l)) at 1. f_equal. rewrite dropN_dropN. f_equal; lia.
Qed.
Lemma tree_of l i n : 0 < n -> i + n <= lenN l -> excess_before l (i + n) = excess_before l i -> (forall k, i < k -> k < i + n -> (excess_before l i < excess_before l k)%Z) ->
  exists s, tree_at l i s /\ lenN (enc s) = n.
Proof.
  intros Hn Hl H1 H2. assert (Ls : lenN (sliceN i n l) = n) by now apply lenN_sliceN.
  destruct (parse_tree (sliceN i n l)) as (s & Es).
  - lia.
  - rewrite Ls, ex_slice by lia. lia.
  - rewrite Ls. intros p P1 P2. rewrite ex_slice by lia. specialize (H2 (i + p) ltac:(lia) ltac:(lia)). lia.
  - exists s. rewrite <- Es. split; [|auto]. exists (takeN i l), (dropN (i + n) l). rewrite <- Es. split; [now apply cut3|]. rewrite lenN_takeN. lia.
Qed.
Lemma tree_at_ex l i s : tree_at l i s -> i + lenN (enc s) <= lenN l /\ nthN false l i = true /\ nthN false l (i + lenN (enc s) - 1) = false /\
  excess_before l (i + lenN (enc s)) = excess_before l i /\ (forall k, i < k -> k < i + lenN (enc s) -> (excess_before l i < excess_before l k)%Z).
Proof.
  intros (a & b & -> & <-). pose proof (len_enc2 s) as L2. rewrite !lenN_app. split; [lia|].
  assert (Hn : forall k, k < lenN (enc s) -> nthN false (a ++ enc s ++ b) (lenN a + k) = nthN false (enc s) k).
  { intros k Hk. rewrite nthN_app_ge. now rewrite nthN_app_lt. }
  split; [rewrite <- (N.add_0_r (lenN a)), Hn by lia; apply enc_first|].
  split; [replace (lenN a + lenN (enc s) - 1) with (lenN a + (lenN (enc s) - 1)) by lia; rewrite Hn by lia; apply enc_last|].
  assert (He : forall k, k <= lenN (enc s) -> excess_before (a ++ enc s ++ b) (lenN a + k) = (excess_before a (lenN a) + excess_before (enc s) k)%Z).
  { intros k Hk. rewrite ex_app_ge. now rewrite ex_app_le. }
  assert (H0 : excess_before (a ++ enc s ++ b) (lenN a) = excess_before a (lenN a)) by now rewrite ex_app_le by lia.
  destruct (enc_balanced s) as [E1 E2]. rewrite He, E1, H0 by lia. split; [lia|]. intros k K1 K2. replace k with (lenN a + (k - lenN a)) by lia. rewrite He by lia. specialize (E2 (k - lenN a) ltac:(lia) ltac:(lia)). lia.
Qed.
Lemma tree_at_fun l i s s' : tree_at l i s -> tree_at l i s' -> lenN (enc s) = lenN (enc s').
Proof.
  intros H H'. destruct (tree_at_ex _ _ _ H) as (_ & _ & _ & E & M). destruct (tree_at_ex _ _ _ H') as (_ & _ & _ & E' & M'). pose proof (len_enc2 s). pose proof (len_enc2 s').
  destruct (N.lt_trichotomy (lenN (enc s)) (lenN (enc s'))) as [L|[L|L]]; auto.
  - specialize (M' (i + lenN (enc s)) ltac:(lia) ltac:(lia)). lia.
  - specialize (M (i + lenN (enc s')) ltac:(lia) ltac:(lia)). lia.
Qed.

Lemma fwd_tree l i o : nthN false l i = true -> is_fwd l i (-1) o -> forall j, o = Some j <-> exists s, tree_at l i s /\ j + 1 = i + lenN (enc s).
Proof.
  intros Hi Ho j. assert (Hin : i < lenN l) by (destruct (N.ltb_spec i (lenN l)); [auto|rewrite nthN_overflow in Hi by auto; discriminate]).
  pose proof (ex_succ l i Hin) as Ei. rewrite Hi in Ei. cbn [paren] in Ei. split.
  - intros ->. cbn [is_fwd] in Ho. destruct Ho as (A & B & C & D). destruct (tree_of l i (j + 1 - i)) as (s & Hs & Ls); [lia|lia|replace (i + (j + 1 - i)) with (j + 1) by lia; lia| |].
    + intros k K1 K2. apply (stay_fwd l (i + 1) k); [lia|lia|]. intros k' K3 K4. replace k' with (k' - 1 + 1) by lia. specialize (D (k' - 1) ltac:(lia) ltac:(lia)). lia.
    + exists s. split; [auto|lia].
  - intros (s & Hs & Ej). destruct (tree_at_ex _ _ _ Hs) as (L & _ & _ & E & M). pose proof (len_enc2 s) as L2. apply (is_fwd_fun l i (-1)); [auto|]. cbn [is_fwd].
    rewrite Ej, E. split; [lia|]. split; [lia|]. split; [lia|]. intros k K1 K2. specialize (M (k + 1) ltac:(lia) ltac:(lia)). lia.
Qed.
Lemma bwd_tree l j o : j < lenN l -> nthN false l j = false -> is_bwd l j (-1) o -> forall i, o = Some i <-> exists s, tree_at l i s /\ j + 1 = i + lenN (enc s).
Proof.
  intros Hin Hj Ho i. pose proof (ex_succ l j Hin) as Ej. rewrite Hj in Ej. cbn [paren] in Ej. split.
  - intros ->. cbn [is_bwd] in Ho. destruct Ho as (A & C & D). destruct (tree_of l i (j + 1 - i)) as (s & Hs & Ls); [lia|lia|replace (i + (j + 1 - i)) with (j + 1) by lia; lia| |].
    + intros k K1 K2. apply (stay_bwd l k j); [lia|lia|]. intros k' K3 K4. specialize (D k' ltac:(lia) ltac:(lia)). lia.
    + exists s. split; [auto|lia].
  - intros (s & Hs & E'). destruct (tree_at_ex _ _ _ Hs) as (L & _ & _ & E & M). pose proof (len_enc2 s) as L2. apply (is_bwd_fun l j (-1)); [auto|]. cbn [is_bwd].
    rewrite <- E' in E. split; [lia|]. split; [lia|]. intros k K1 K2. specialize (M k ltac:(lia) ltac:(lia)). lia.
Qed.
Lemma inside_ex l p i : inside l p i <-> p < i /\ i <= lenN l /\ nthN false l p = true /\ excess_before l i = excess_before l (p + 1) /\ (forall k, p < k -> k <= i -> (excess_before l p < excess_before l k)%Z).
Proof.
  split.
  - intros (a & cs & b & -> & <- & ->). change (flat_map enc cs) with (encs cs). rewrite !lenN_app, !lenN_cons, !lenN_app. split; [lia|]. split; [lia|]. split; [rewrite <- (N.add_0_r (lenN a)) at 1; now rewrite nthN_app_ge|].
    assert (He : forall k, k <= lenN (encs cs) -> excess_before (a ++ true :: encs cs ++ b) (lenN a + 1 + k) = (excess_before a (lenN a) + 1 + excess_before (encs cs) k)%Z).
    { intros k Hk. replace (lenN a + 1 + k) with (lenN a + (k + 1)) by lia. rewrite ex_app_ge, ex_cons, ex_app_le by auto. cbn [paren]. lia. }
    assert (H0 : excess_before (a ++ true :: encs cs ++ b) (lenN a) = excess_before a (lenN a)) by now rewrite ex_app_le by lia.
    split; [|intros k K1 K2].
    + rewrite He by lia. pose proof (He 0 ltac:(lia)) as H1. rewrite N.add_0_r, ex_0 in H1. rewrite H1, encs_balanced. lia.
    + replace k with (lenN a + 1 + (k - lenN a - 1)) by lia. rewrite He, H0 by lia. pose proof (encs_nonneg cs (k - lenN a - 1) ltac:(lia)). lia.
  - intros (A & L & Hp & E & M). assert (Ls : lenN (sliceN (p + 1) (i - p - 1) l) = i - p - 1) by (apply lenN_sliceN; lia).
    destruct (parse_forest (sliceN (p + 1) (i - p - 1) l)) as (cs & Es).
    + rewrite Ls, ex_slice by lia. replace (p + 1 + (i - p - 1)) with i by lia. lia.
    + rewrite Ls. intros k Hk. rewrite ex_slice by lia. specialize (M (p + 1 + k) ltac:(lia) ltac:(lia)). rewrite (ex_succ l p), Hp by lia. cbn [paren]. lia.
    + exists (takeN p l), cs, (dropN i l). change (flat_map enc cs) with (encs cs). rewrite <- Es. split; [|rewrite lenN_takeN, Ls; lia].
      rewrite (cut3 l p 1) at 1 by lia. f_equal. replace (sliceN p 1 l) with [true]; [cbn [app]; f_equal|].
      * rewrite <- (takeN_dropN (i - p - 1) (dropN (p + 1) l)) at 1. f_equal. rewrite dropN_dropN. f_equal; lia.
      * unfold sliceN. rewrite (dropN_nth false) by lia. rewrite Hp. reflexivity.
Qed.
Lemma is_bwd_total l i d : exists o, is_bwd l i d o.
Proof.
  pose proof (find_rev_range_spec (fun k => (excess_before l k =? excess_before l i + d)%Z) i) as H. destruct (find _ _) as [k|].
  - destruct H as (A & E & M). exists (Some k). cbn. apply Z.eqb_eq in E. split; [auto|]. split; [auto|]. intros j J1 J2. specialize (M j ltac:(lia)). now apply Z.eqb_neq in M.
  - exists None. cbn. intros k Hk. specialize (H k Hk). now apply Z.eqb_neq in H.
Qed.
Lemma bwd_inside l i o : i <= lenN l -> is_bwd l i (-1) o -> forall p, o = Some p <-> inside l p i.
Proof.
  intros Hin Ho p. rewrite inside_ex. split.
  - intros ->. cbn [is_bwd] in Ho. destruct Ho as (A & C & D).
    assert (M : forall k, p < k -> k <= i -> (excess_before l p < excess_before l k)%Z).
    { intros k K1 K2. apply (stay_bwd l k i); [lia|lia|]. intros k' K3 K4. specialize (D k' ltac:(lia) ltac:(lia)). lia. }
    pose proof (M (p + 1) ltac:(lia) ltac:(lia)) as M1. rewrite ex_succ in M1 |- * by lia. split; [lia|]. split; [lia|]. destruct (nthN false l p); cbn [paren] in *; [|lia]. split; [auto|]. split; [lia|auto].
  - intros (A & L & Hp & E & M). rewrite ex_succ, Hp in E by lia. cbn [paren] in E. apply (is_bwd_fun l i (-1)); [auto|]. cbn [is_bwd]. split; [auto|]. split; [lia|]. intros k K1 K2. specialize (M k ltac:(lia) ltac:(lia)). lia.
Qed.
Lemma bwd_around l i o : i < lenN l -> nthN false l i = false -> is_bwd l i (-2) o ->
  forall p, o = Some p <-> exists q s, tree_at l q s /\ i + 1 = q + lenN (enc s) /\ inside l p q.
Proof.
  intros Hin Hi Ho p. split.
  - intros ->. cbn [is_bwd] in Ho. destruct Ho as (A & C & D). destruct (is_bwd_total l i (-1)) as (o & H1).
    assert (M : forall k, p < k -> k <= i -> (excess_before l p < excess_before l k)%Z).
    { intros k K1 K2. apply (stay_bwd l k i); [lia|lia|]. intros k' K3 K4. specialize (D k' ltac:(lia) ltac:(lia)). lia. }
    pose proof (M (p + 1) ltac:(lia) ltac:(lia)) as M1. rewrite ex_succ in M1 by lia.
    assert (Hp : nthN false l p = true) by (destruct (nthN false l p); cbn [paren] in M1; [auto|lia]). clear M1.
    assert (Ep : excess_before l (p + 1) = (excess_before l i + -1)%Z) by (rewrite ex_succ, Hp by lia; cbn [paren]; lia).
    destruct o as [q|].
    + destruct (proj1 (bwd_tree l i _ Hin Hi H1 q) eq_refl) as (s & Hs & Es). exists q, s. split; [auto|]. split; [auto|]. cbn [is_bwd] in H1. destruct H1 as (A1 & C1 & D1).
      assert (Hpq : p < q). { destruct (N.ltb_spec p q); [auto|]. destruct (N.eq_dec p q) as [<-|]; [lia|]. exfalso. apply (D1 (p + 1)); [lia| |lia]. destruct (N.eq_dec (p + 1) i) as [E|]; [rewrite E in Ep; lia|lia]. }
      apply inside_ex. split; [auto|]. split; [lia|]. split; [auto|]. split; [lia|]. intros k K1 K2. apply M; lia.
    + exfalso. cbn [is_bwd] in H1. apply (H1 (p + 1)); [|lia]. destruct (N.eq_dec (p + 1) i) as [E|]; [rewrite E in Ep; lia|lia].
  - intros (q & s & Hs & Es & Hq). destruct (tree_at_ex _ _ _ Hs) as (L & _ & _ & E & M). apply inside_ex in Hq. destruct Hq as (A & _ & Hp & E' & M'). rewrite ex_succ, Hp in E' by lia. cbn [paren] in E'.
    pose proof (len_enc2 s). rewrite <- Es, ex_succ, Hi in E by lia. cbn [paren] in E.
    apply (is_bwd_fun l i (-2)); [auto|]. cbn [is_bwd]. split; [lia|]. split; [lia|]. intros k K1 K2. destruct (N.leb_spec k q) as [Kq|Kq]; [specialize (M' k ltac:(lia) Kq); lia|specialize (M k Kq ltac:(lia)); lia].
Qed.

(** [p] is reached from [i] by going [k] times to the opening parenthesis around. *)
Fixpoint outwards (l : list bool) (k : nat) (i p : N) : Prop :=
  match k with O => p = i | S k => exists q, inside l q i /\ outwards l k q p end.
Lemma bwd_outwards l : forall k i o, i <= lenN l -> is_bwd l i (- Z.of_nat (S k)) o -> forall p, o = Some p <-> outwards l (S k) i p.
Proof.
  induction k as [|k IH]; intros i o Hin Ho p.
  - cbn [outwards]. change (- Z.of_nat 1)%Z with (-1)%Z in Ho. rewrite (bwd_inside l i o Hin Ho p). split; [intros H; exists p; auto|intros (q & H & ->); auto].
  - cbn [outwards]. destruct (is_bwd_total l i (-1)) as (o1 & H1). pose proof (bwd_inside l i o1 Hin H1) as I1. destruct o1 as [q|].
    + assert (Hq : inside l q i) by now apply I1. cbn [is_bwd] in H1. destruct H1 as (A1 & C1 & D1).
      assert (M : forall k', q < k' -> k' <= i -> (excess_before l q < excess_before l k')%Z) by (apply inside_ex in Hq; apply Hq).
      assert (Ho2 : is_bwd l q (- Z.of_nat (S k)) o).
      { destruct o as [r|]; cbn [is_bwd] in Ho |- *.
        - destruct Ho as (A & C & D). assert (r < q). { destruct (N.ltb_spec r q); [auto|]. destruct (N.eq_dec r q) as [->|]; [lia|]. specialize (M r ltac:(lia) ltac:(lia)). lia. }
          split; [auto|]. split; [lia|]. intros k' K1 K2. specialize (D k' K1 ltac:(lia)). lia.
        - intros k' K. specialize (Ho k' ltac:(lia)). lia. }
      assert (Hlq : q <= lenN l) by lia. rewrite (IH q o Hlq Ho2 p). split; [intros H; exists q; auto|]. intros (q' & H & H'). apply I1 in H. injection H as <-. exact H'.
    + split; [|intros (q & H & _); apply I1 in H; discriminate]. intros ->. exfalso. cbn [is_bwd] in Ho, H1. destruct Ho as (A & C & D).
      destruct (ex_ivt l p (i - p) (Z.of_nat (S k))) as (j & Hj & Ej); [replace (p + (i - p)) with i by lia; lia|].
      apply (H1 j); [|lia]. destruct (N.eq_dec j i) as [->|]; [lia|lia].
Qed.

Section Any.
Variables (lk : lookup) (B : N) (l : list bool) (bt : bptree).
Hypothesis Hlk : a_lookup lk.
Hypothesis Hb : built_from B l bt.
Hypothesis Hfit : (Z.of_N (lenN l) + 2 <= 9223372036854775807)%Z.
Lemma any_len : rlen (bp_vec bt) = lenN l.
Proof. destruct (built_good _ _ _ Hb) as (bv & G & Hl & <-). apply (good_len _ _ (bg_rs _ _ _ G)). Qed.
Lemma any_get i : rs_get (bp_vec bt) i = Ok (option_map bitN (getN l i)).
Proof. destruct (built_good _ _ _ Hb) as (bv & G & Hl & Hlen). rewrite (rs_get_ok bv) by apply G. now rewrite Hl. Qed.
Lemma any_getu i : i < lenN l -> rs_get_unchecked (bp_vec bt) i = Ok (bitN (nthN false l i)).
Proof.
  intros Hi. destruct (built_good _ _ _ Hb) as (bv & G & Hl & Hlen). rewrite (rs_get_unchecked_ok bv); [|apply G|apply G|now rewrite Hlen]. rewrite <- Hl. unfold bits. rewrite nthN_bools by now rewrite Hlen. reflexivity.
Qed.
Lemma any_in i : nthN false l i = true -> i < lenN l.
Proof. intros H. destruct (N.ltb_spec i (lenN l)); [auto|rewrite nthN_overflow in H by auto; discriminate]. Qed.
Lemma any_ne i : i < lenN l -> l <> [].
Proof. intros H ->. cbn in H. lia. Qed.
Lemma any_fwd i d : i < lenN l -> (Z.abs d <= 2)%Z -> exists o, bp_fwd_search lk B bt i d = Ok o /\ is_fwd l i d o.
Proof. intros Hi Hd. apply (C41_partial lk B l); auto; [eapply any_ne; eauto|lia]. Qed.
Lemma any_close i : nthN false l i = true -> exists o, bp_close lk B bt i = Ok o /\ forall j, o = Some j <-> exists s, tree_at l i s /\ j + 1 = i + lenN (enc s).
Proof.
  intros Hi. pose proof (any_in i Hi) as Hin. unfold bp_close. rewrite any_len. destruct (N.leb_spec (lenN l) i); [lia|]. destruct (any_fwd i (-1) Hin ltac:(lia)) as (o & E & Ho). exists o. split; [auto|]. now apply fwd_tree.
Qed.
Lemma any_bit i : match getN l i with Some b => nthN false l i = b /\ i < lenN l | None => nthN false l i = false /\ lenN l <= i end.
Proof. destruct (N.ltb_spec i (lenN l)) as [H|H]; [rewrite (getN_ok false) by auto; auto|rewrite getN_none by auto; split; [now apply nthN_overflow|auto]]. Qed.
Lemma any_open_get i : rs_get (bp_vec bt) i = Ok (if i <? lenN l then Some (bitN (nthN false l i)) else None).
Proof. rewrite any_get. pose proof (any_bit i) as H. destruct (getN l i), (N.ltb_spec i (lenN l)); destruct H; try lia; subst; auto. Qed.
Lemma any_assert i : nthN false l i = true -> bp_assert_node bt i = Ok tt.
Proof. apply (np_assert B l bt Hb). Qed.
Lemma open_excess i : nthN false l i = true -> excess_before l (i + 1) = (excess_before l i + 1)%Z.
Proof. intros H. rewrite ex_succ by now apply any_in. rewrite H. reflexivity. Qed.

Lemma any_next i : nthN false l i = true -> exists o, bp_next_sibling lk B bt i = Ok o /\
  forall s, o = Some s <-> exists t, tree_at l i t /\ s = i + lenN (enc t) /\ nthN false l s = true.
Proof.
  intros Hi. unfold bp_next_sibling. rewrite any_assert by auto. cbn [bind]. destruct (any_close i Hi) as (o & E & Ho). rewrite E. cbn [bind]. destruct o as [j|].
  - destruct (proj1 (Ho j) eq_refl) as (t & Ht & Ej). rewrite any_open_get. cbn [bind]. eexists. split; [reflexivity|]. intros s. split.
    + intros H. destruct (N.ltb_spec (j + 1) (lenN l)); [|discriminate]. destruct (nthN false l (j + 1)) eqn:Eb; [|discriminate]. cbn in H. injection H as <-. exists t. auto.
    + intros (t' & Ht' & -> & Hs). rewrite (tree_at_fun _ _ _ _ Ht' Ht) in *. rewrite Ej. pose proof (any_in _ Hs). destruct (N.ltb_spec (i + lenN (enc t)) (lenN l)); [|lia]. rewrite Hs. reflexivity.
  - eexists. split; [reflexivity|]. intros s. split; [discriminate|]. intros (t & Ht & _). pose proof (len_enc2 t) as L2. assert (H : @None N = Some (i + lenN (enc t) - 1)) by (apply Ho; exists t; split; [auto|lia]). discriminate.
Qed.

Lemma inside_next p c t : inside l p c -> tree_at l c t -> inside l p (c + lenN (enc t)).
Proof.
  intros H Ht. apply inside_ex in H. apply inside_ex. destruct H as (A & L & Hp & E & M). destruct (tree_at_ex _ _ _ Ht) as (L' & _ & _ & E' & M'). pose proof (len_enc2 t).
  split; [lia|]. split; [lia|]. split; [auto|]. split; [lia|]. intros k K1 K2. specialize (M c ltac:(lia) ltac:(lia)) as Mc. destruct (N.leb_spec k c); [auto|]. destruct (N.eq_dec k (c + lenN (enc t))) as [->|]; [lia|]. specialize (M' k ltac:(lia) ltac:(lia)). lia.
Qed.
Lemma inside_tree p c x : inside l p c -> inside l p x -> nthN false l c = true -> c < x -> exists t, tree_at l c t /\ c + lenN (enc t) <= x.
Proof.
  intros H Hx Hc L. pose proof (any_in c Hc) as Hin. apply inside_ex in H, Hx. destruct H as (A & _ & Hp & E & M). destruct Hx as (A' & L' & _ & E' & M').
  pose proof (open_excess c Hc) as Oc. pose proof (open_excess p Hp) as Op. destruct (any_fwd c (-1) Hin ltac:(lia)) as (o & _ & Ho). pose proof (fwd_tree l c o Hc Ho) as F.
  assert (x <> c + 1) by (intros ->; lia). destruct o as [j|]; cbn [is_fwd] in Ho.
  - destruct (proj1 (F j) eq_refl) as (t & Ht & Ej). exists t. split; [auto|]. destruct Ho as (_ & _ & _ & D). destruct (N.leb_spec (c + lenN (enc t)) x); [auto|]. exfalso. apply (D (x - 1)); [lia|lia|]. replace (x - 1 + 1) with x by lia. lia.
  - exfalso. apply (Ho (x - 1)); [lia|lia|]. replace (x - 1 + 1) with x by lia. lia.
Qed.
Lemma any_children_from p : forall fuel c, inside l p c -> nthN false l c = true -> (N.to_nat (lenN l - c) < fuel)%nat ->
  exists r, collect fuel (bp_children_next lk B true bt) (Some c) = Ok r /\ StronglySorted N.lt r /\ forall x, In x r <-> c <= x /\ inside l p x /\ nthN false l x = true.
Proof.
  induction fuel as [|fuel IH]; intros c Hc Oc Hf; [lia|]. cbn [collect bp_children_next]. destruct (any_next c Oc) as (o & E & Ho). rewrite E. cbn [bind]. pose proof (any_in c Oc) as Hin. destruct o as [s|].
  - destruct (proj1 (Ho s) eq_refl) as (t & Ht & Es & Os). pose proof (len_enc2 t). pose proof (any_in s Os) as Hs. destruct (IH s) as (r & Er & Sr & Ir); [subst s; eapply inside_next; eauto|auto|lia|].
    rewrite Er. cbn [bind]. exists (c :: r). split; [reflexivity|]. split.
    + constructor; [auto|]. apply Forall_forall. intros x Hx. apply Ir in Hx. lia.
    + intros x. cbn [In]. rewrite Ir. split; [intros [<-|(A & B' & C)]; [split; [lia|auto]|split; [lia|auto]]|]. intros (A & Ix & Ox). destruct (N.eq_dec c x) as [|]; [now left|right].
      split; [|auto]. destruct (inside_tree p c x Hc Ix Oc ltac:(lia)) as (t' & Ht' & L'). rewrite (tree_at_fun _ _ _ _ Ht' Ht) in L'. lia.
  - replace (collect fuel (bp_children_next lk B true bt) None) with (@Ok (list N) []) by (destruct fuel; [lia|reflexivity]). cbn [bind]. exists [c]. split; [reflexivity|]. split; [repeat constructor|].
    intros x. cbn [In]. split; [intros [<-|[]]; split; [lia|auto]|]. intros (A & Ix & Ox). destruct (N.eq_dec c x) as [|Ncx]; [now left|exfalso].
    destruct (inside_tree p c x Hc Ix Oc ltac:(lia)) as (t & Ht & L'). assert (Hs : @None N = Some (c + lenN (enc t))); [|discriminate]. apply Ho. exists t. split; [auto|]. split; [auto|].
    destruct (N.eq_dec (c + lenN (enc t)) x) as [->|]; [auto|]. pose proof (inside_next p c t Hc Ht) as It. apply inside_ex in Ix, It. destruct Ix as (_ & Lx & Hp & Ex & Mx). destruct It as (Lp & _ & _ & Et & _).
    pose proof (open_excess p Hp) as Op. pose proof (len_enc2 t). specialize (Mx (c + lenN (enc t) + 1) ltac:(lia) ltac:(lia)). rewrite ex_succ in Mx by lia. destruct (nthN false l (c + lenN (enc t))); [auto|]. cbn [paren] in Mx. lia.
Qed.
End Any.

(** ** C133, functions that search forwards: any block size. *)
Theorem C133_forward lk B l bt node other :
  a_lookup lk -> built_from B l bt -> (Z.of_N (lenN l) + 2 <= 9223372036854775807)%Z ->
  nthN false l node = true -> nthN false l other = true ->
  (exists o, bp_close lk B bt node = Ok o /\ forall j, o = Some j <-> exists s, tree_at l node s /\ j + 1 = node + lenN (enc s)) /\
  (exists o, bp_subtree_size lk B bt node = Ok o /\ forall k, o = Some k <-> exists s, tree_at l node s /\ k = tsize s) /\
  (exists o, bp_is_ancestor lk B bt node other = Ok o /\ forall b, o = Some b <-> exists s, tree_at l node s /\ b = (node <=? other) && (other <? node + lenN (enc s))) /\
  bp_first_child bt node = Ok (if nthN false l (node + 1) then Some (node + 1) else None) /\
  (exists b, bp_is_leaf bt node = Ok b /\ (b = true <-> tree_at l node (Node []))) /\
  (exists o, bp_next_sibling lk B bt node = Ok o /\ forall s, o = Some s <-> exists t, tree_at l node t /\ s = node + lenN (enc t) /\ nthN false l s = true) /\
  (exists o, bp_level_next lk B bt node = Ok o /\ forall k, o = Some k <-> exists t, tree_at l node t /\ node + lenN (enc t) <= k /\ nthN false l k = true /\
     excess_before l k = excess_before l node /\ forall m, node + lenN (enc t) <= m -> m < k -> nthN false l m = true -> excess_before l m <> excess_before l node) /\
  bp_node_index bt node = Ok (count true (takeN node l)) /\
  bp_depth bt node = Ok (Z.to_N (excess_before l node)) /\
  (exists r, bp_children_list lk B true bt node = Ok r /\ StronglySorted N.lt r /\ forall c, In c r <-> inside l node c /\ nthN false l c = true) /\
  bp_dfs_list bt = Ok (positions true l) /\
  bp_size bt = Ok (count true l).
Proof.
  intros Hlk Hb Hfit Hn Ho. pose proof (any_in l node Hn) as Hin. pose proof (any_in l other Ho) as Hio.
  pose proof (any_len B l bt Hb) as Hlen. pose proof (any_assert B l bt Hb) as HA. pose proof (any_open_get B l bt Hb) as HG.
  pose proof (np_rank1 B l bt Hb) as HR1. pose proof (np_rank0 B l bt Hb) as HR0.
  destruct (any_close lk B l bt Hlk Hb Hfit node Hn) as (c & Ec & Hc).
  split; [exists c; auto|]. split; [|split; [|split; [|split; [|split; [|split; [|split; [|split; [|split; [|split]]]]]]]]].
  - unfold bp_subtree_size. rewrite HA by auto. cbn [bind]. rewrite Ec. cbn [bind]. destruct c as [c|].
    + destruct (proj1 (Hc c) eq_refl) as (s & Hs & Es). rewrite !HR1. cbn [bind]. unfold rank_spec.
      assert (Ct : count true (takeN c l) = count true (takeN node l) + tsize s).
      { destruct Hs as (a & b & -> & <-). pose proof (len_enc2 s). rewrite (takeN_app_exact a). replace c with (lenN a + (lenN (enc s) - 1)) by lia. rewrite takeN_app_ge by lia. rewrite count_app. f_equal.
        replace (lenN a + (lenN (enc s) - 1) - lenN a) with (lenN (enc s) - 1) by lia. rewrite takeN_app_le by lia. rewrite <- (proj1 (count_enc s)). pose proof (f_equal (count true) (takeN_dropN (lenN (enc s) - 1) (enc s))) as Hcd. rewrite count_app in Hcd.
        rewrite (dropN_nth false) in Hcd by lia. rewrite enc_last in Hcd. rewrite dropN_all in Hcd by lia. cbn [count Bool.eqb] in Hcd. lia. }
      rewrite Ct, sub_ok by lia. cbn [bind]. eexists. split; [reflexivity|]. intros k. split.
      * intros H. injection H as <-. exists s. split; [auto|lia].
      * intros (s' & Hs' & ->). f_equal. pose proof (tree_at_fun _ _ _ _ Hs Hs') as E. rewrite !enc_len_size in E. lia.
    + eexists. split; [reflexivity|]. intros k. split; [discriminate|]. intros (s & Hs & _). pose proof (len_enc2 s). assert (H' : @None N = Some (node + lenN (enc s) - 1)) by (apply Hc; exists s; split; [auto|lia]). discriminate.
  - unfold bp_is_ancestor. rewrite !HA by auto. cbn [bind]. rewrite Ec. cbn [bind]. eexists. split; [reflexivity|]. intros b. destruct c as [c|].
    + destruct (proj1 (Hc c) eq_refl) as (s & Hs & Es). destruct (tree_at_ex _ _ _ Hs) as (_ & _ & Hcl & _ & _). replace (node + lenN (enc s) - 1) with c in Hcl by lia.
      assert (Eb : (node <=? other) && (other <? c) = (node <=? other) && (other <? node + lenN (enc s))).
      { f_equal. rewrite <- Es. destruct (N.ltb_spec other c), (N.ltb_spec other (c + 1)); auto; [lia|]. assert (other = c) by lia. congruence. }
      rewrite Eb. split; [intros H; injection H as <-; exists s; auto|]. intros (s' & Hs' & ->). now rewrite (tree_at_fun _ _ _ _ Hs Hs').
    + split; [discriminate|]. intros (s & Hs & _). pose proof (len_enc2 s). assert (H' : @None N = Some (node + lenN (enc s) - 1)) by (apply Hc; exists s; split; [auto|lia]). discriminate.
  - unfold bp_first_child. rewrite HA by auto. cbn [bind]. rewrite HG. cbn [bind]. destruct (N.ltb_spec (node + 1) (lenN l)) as [L|L]; [destruct (nthN false l (node + 1)); reflexivity|now rewrite nthN_overflow].
  - unfold bp_is_leaf. rewrite HA by auto. cbn [bind]. rewrite HG. cbn [bind]. eexists. split; [reflexivity|]. split.
    + intros H. destruct (N.ltb_spec (node + 1) (lenN l)) as [L|L]; [|discriminate]. destruct (nthN false l (node + 1)) eqn:Eb; [discriminate|].
      destruct (tree_of l node 2) as (s & Hs & Ls); [lia|lia| | |].
      * replace (node + 2) with (node + 1 + 1) by lia. rewrite ex_succ, Eb by lia. rewrite (open_excess l node Hn). cbn [paren]. lia.
      * intros k K1 K2. assert (k = node + 1) by lia. subst k. rewrite (open_excess l node Hn). lia.
      * destruct s as [[|c0 cs]]; [auto|]. exfalso. rewrite len_enc, encs_cons, lenN_app in Ls. pose proof (len_enc2 c0). lia.
    + intros (a & b & El & La). subst l node. change (enc (Node [])) with [true; false]. rewrite !lenN_app, !lenN_cons. change (lenN (@nil bool)) with 0. destruct (N.ltb_spec (lenN a + 1) (lenN a + (0 + 1 + 1 + lenN b))); [|lia]. rewrite nthN_app_ge. reflexivity.
  - apply (any_next lk B l bt); auto.
  - unfold bp_level_next. rewrite Ec. cbn [bind]. destruct c as [c|].
    + destruct (proj1 (Hc c) eq_refl) as (s & Hs & Es). destruct (tree_at_ex _ _ _ Hs) as (Ls & _ & _ & Ex & _). pose proof (len_enc2 s) as L2. destruct (any_fwd lk B l bt Hlk Hb Hfit c 1 ltac:(lia) ltac:(lia)) as (o & E & H1). exists o. split; [auto|].
      rewrite <- Es in Ex. intros k. split.
      * intros ->. exists s. split; [auto|]. cbn [is_fwd] in H1. destruct H1 as (K1 & K2 & K3 & K4). rewrite <- Es.
        assert (Up : forall m, c + 1 <= m -> m <= k -> (excess_before l m <= excess_before l node)%Z).
        { intros m M1 M2. destruct (Z.leb_spec (excess_before l m) (excess_before l node)) as [|Hm]; [auto|exfalso].
          destruct (ex_ivt l (c + 1) (m - c - 1) 1) as (j & J1 & J2); [replace (c + 1 + (m - c - 1)) with m by lia; lia|]. destruct (N.eq_dec j (c + 1)) as [->|]; [lia|]. apply (K4 (j - 1)); [lia|lia|]. replace (j - 1 + 1) with j by lia. lia. }
        pose proof (Up k ltac:(lia) ltac:(lia)) as Uk. rewrite ex_succ in K3 by auto. destruct (nthN false l k) eqn:Ek; cbn [paren] in K3; [|lia]. split; [lia|]. split; [auto|]. split; [lia|].
        intros m M1 M2 M3 M4. apply (K4 m); [lia|lia|]. rewrite (open_excess l m M3). lia.
      * intros (s' & Hs' & K1 & K2 & K3 & K4). rewrite (tree_at_fun _ _ _ _ Hs' Hs) in *. rewrite <- Es in *. pose proof (any_in l k K2). apply (is_fwd_fun l c 1); [auto|]. cbn [is_fwd]. rewrite (open_excess l k K2). split; [lia|]. split; [auto|]. split; [lia|].
        intros m M1 M2 M3.
        assert (Low : forall m, c + 1 <= m -> m <= k -> (excess_before l m <= excess_before l node)%Z).
        { intros m'. pattern m'. apply N_ind1; clear m'; [lia|]. intros m' IHm L1 L2'. destruct (N.eq_dec (c + 1) (m' + 1)) as [Eq|]; [rewrite <- Eq; lia|]. specialize (IHm ltac:(lia) ltac:(lia)). rewrite ex_succ by lia. destruct (nthN false l m') eqn:Em; cbn [paren]; [|lia]. specialize (K4 m' ltac:(lia) ltac:(lia) Em). lia. }
        specialize (Low (m + 1) ltac:(lia) ltac:(lia)). lia.
    + eexists. split; [reflexivity|]. intros k. split; [discriminate|]. intros (s & Hs & _). pose proof (len_enc2 s). assert (H' : @None N = Some (node + lenN (enc s) - 1)) by (apply Hc; exists s; split; [auto|lia]). discriminate.
  - unfold bp_node_index. rewrite HA by auto. cbn [bind]. apply HR1.
  - unfold bp_depth, bp_excess. rewrite HA by auto. cbn [bind]. rewrite Hlen. destruct (N.ltb_spec node (lenN l)); [|lia]. cbn [assert bind]. rewrite HR1, HR0. cbn [bind]. f_equal.
    unfold rank_spec. change (Z.of_N (count true (takeN (node + 1) l)) - Z.of_N (count false (takeN (node + 1) l)))%Z with (excess_before l (node + 1)). rewrite (open_excess l node Hn).
    destruct (Z.leb_spec 0 (excess_before l node + 1)); lia.
  - unfold bp_children_list. rewrite HA by auto. cbn [bind]. unfold bp_first_child. rewrite HA by auto. cbn [bind]. rewrite HG. cbn [bind].
    assert (Hi1 : inside l node (node + 1)).
    { apply inside_ex. split; [lia|]. split; [lia|]. split; [auto|]. split; [auto|]. intros k K1 K2. assert (k = node + 1) by lia. subst k. rewrite (open_excess l node Hn). lia. }
    assert (Hge : forall c, inside l node c -> node + 1 <= c) by (intros x Hx; apply inside_ex in Hx; lia).
    destruct (nthN false l (node + 1)) eqn:Eb.
    + pose proof (any_in l (node + 1) Eb). destruct (N.ltb_spec (node + 1) (lenN l)); [|lia]. cbn [bitN N.eqb]. destruct (any_children_from lk B l bt Hlk Hb Hfit node (bp_fuel bt) (node + 1) Hi1 Eb) as (r & Er & Sr & Ir); [unfold bp_fuel; rewrite Hlen; lia|].
      change (1 =? 1) with true. cbn iota. exists r. split; [auto|]. split; [auto|]. intros x. rewrite Ir. split; [tauto|]. intros [H1 H2]. auto.
    + exists []. split; [destruct (N.ltb_spec (node + 1) (lenN l)); reflexivity|]. split; [constructor|]. intros x. split; [intros []|]. intros [H1 H2]. exfalso.
      pose proof (Hge x H1). assert (x <> node + 1) by congruence. apply inside_ex in H1. destruct H1 as (_ & Lx & _ & Ex & Mx). specialize (Mx (node + 1 + 1) ltac:(lia) ltac:(lia)). rewrite ex_succ, Eb, (open_excess l node Hn) in Mx by lia. cbn [paren] in Mx. lia.
  - unfold bp_dfs_list, bp_dfs_iter. destruct (built_good _ _ _ Hb) as (bv & G & Hl & Hlb). destruct (sel_new_ok false bv (bp_vec bt) (bg_wf _ _ _ G) (bg_rs _ _ _ G)) as (it & E1 & HR). rewrite E1. cbn [bind].
    unfold posz in HR. cbn [negb] in HR. rewrite Hl in HR. eapply (collect_ok (sel_R false bv (bp_vec bt))); [intros s m; apply sel_next_ok; apply G|exact HR|].
    unfold bp_fuel. rewrite Hlen. pose proof (lenN_positions true l) as HP. pose proof (count_le true l). unfold lenN in *. lia.
  - unfold bp_size. rewrite HR1, Hlen. unfold rank_spec. now rewrite takeN_all by lia.
Qed.

(** ** C133, functions that search backwards: block sizes aligned with the lookup width. *)
Section Back.
Variables (lk : lookup) (B : N) (l : list bool) (bt : bptree).
Hypothesis Hlk : a_lookup lk.
Hypothesis Hal : aligned lk B.
Hypothesis Hb : built_from B l bt.
Hypothesis Hfit : (Z.of_N (lenN l) + 2 <= 9223372036854775807)%Z.
Lemma any_open j : j < lenN l -> nthN false l j = false -> exists o, bp_open lk B bt j = Ok o /\ forall i, o = Some i <-> exists s, tree_at l i s /\ j + 1 = i + lenN (enc s).
Proof.
  intros Hin Hj. unfold bp_open. rewrite (any_len B l bt Hb). destruct (N.leb_spec (lenN l) j); [lia|]. destruct (C42_partial lk B l bt j (-1) Hlk Hb Hal Hin ltac:(lia)) as (o & E & Ho). exists o. split; [auto|]. now apply bwd_tree.
Qed.
End Back.
Theorem C133_parentheses lk B l bt j :
  a_lookup lk -> aligned lk B -> built_from B l bt -> (Z.of_N (lenN l) + 2 <= 9223372036854775807)%Z -> j < lenN l ->
  (nthN false l j = false -> exists o, bp_open lk B bt j = Ok o /\ forall i, o = Some i <-> exists s, tree_at l i s /\ j + 1 = i + lenN (enc s)) /\
  exists o, bp_enclose lk B bt j = Ok o /\
    forall p, o = Some p <-> if nthN false l j then inside l p j else exists q s, tree_at l q s /\ j + 1 = q + lenN (enc s) /\ inside l p q.
Proof.
  intros Hlk Hal Hb Hfit Hin. split; [intros Hj; now apply any_open|]. unfold bp_enclose. rewrite (any_len B l bt Hb). destruct (N.leb_spec (lenN l) j); [lia|]. rewrite (any_getu B l bt Hb) by auto. cbn [bind].
  destruct (nthN false l j) eqn:Ej; cbn [bitN].
  - change (1 =? 1) with true. cbn iota. destruct (C42_partial lk B l bt j (-1) Hlk Hb Hal Hin ltac:(lia)) as (o & E & Ho). exists o. split; [auto|]. apply bwd_inside; [lia|auto].
  - change (0 =? 1) with false. cbn iota. destruct (C42_partial lk B l bt j (-2) Hlk Hb Hal Hin ltac:(lia)) as (o & E & Ho). exists o. split; [auto|]. now apply bwd_around.
Qed.
Theorem C133_backward lk B l bt node :
  a_lookup lk -> aligned lk B -> built_from B l bt -> (Z.of_N (lenN l) + 2 <= 9223372036854775807)%Z -> nthN false l node = true ->
  (exists o, bp_parent lk B bt node = Ok o /\ forall p, o = Some p <-> inside l p node) /\
  (exists o, bp_previous_sibling lk B bt node = Ok o /\ forall s, o = Some s <-> exists t, tree_at l s t /\ node = s + lenN (enc t)) /\
  (exists o, bp_last_child lk B bt node = Ok o /\ forall c, o = Some c <-> exists cs s, tree_at l node (Node (cs ++ [s])) /\ c = node + 1 + lenN (flat_map enc cs)) /\
  (exists o, bp_level_prev lk B bt node = Ok o /\ forall m, o = Some m <-> exists c t, c < node /\ nthN false l c = false /\ excess_before l (c + 1) = excess_before l node /\
     (forall c', c < c' -> c' < node -> nthN false l c' = false -> excess_before l (c' + 1) <> excess_before l node) /\ tree_at l m t /\ c + 1 = m + lenN (enc t)) /\
  (forall k, N.of_nat k + lenN l <= 9223372036854775807 -> exists o, bp_level_ancestor lk B bt node (N.of_nat k) = Ok o /\ forall p, o = Some p <-> outwards l k node p).
Proof.
  intros Hlk Hal Hb Hfit Hn. pose proof (any_in l node Hn) as Hin.
  pose proof (any_len B l bt Hb) as Hlen. pose proof (any_assert B l bt Hb) as HA. pose proof (any_open_get B l bt Hb) as HG. pose proof (any_open lk B l bt Hlk Hal Hb Hfit) as HO.
  split; [|split; [|split; [|split]]].
  - unfold bp_parent. rewrite HA by auto. cbn [bind]. destruct (C133_parentheses lk B l bt node Hlk Hal Hb Hfit Hin) as [_ H]. now rewrite Hn in H.
  - unfold bp_previous_sibling. rewrite HA by auto. cbn [bind]. destruct (N.eqb_spec node 0) as [->|Hz].
    + exists None. split; [auto|]. intros s. split; [discriminate|]. intros (t & _ & E). pose proof (len_enc2 t). lia.
    + rewrite HG. cbn [bind]. destruct (N.ltb_spec (node - 1) (lenN l)); [|lia]. destruct (nthN false l (node - 1)) eqn:Eb; cbn [bitN].
      * change (1 =? 0) with false. cbn iota. exists None. split; [auto|]. intros s. split; [discriminate|]. intros (t & Ht & E). destruct (tree_at_ex _ _ _ Ht) as (_ & _ & Hc & _). rewrite <- E in Hc. congruence.
      * change (0 =? 0) with true. cbn iota. destruct (HO (node - 1)) as (o & E & Ho); [lia|auto|]. exists o. split; [auto|]. intros s. rewrite Ho. replace (node - 1 + 1) with node by lia. reflexivity.
  - unfold bp_last_child. rewrite HA by auto. cbn [bind]. rewrite HG. cbn [bind]. destruct (N.ltb_spec (node + 1) (lenN l)) as [L|L].
    + destruct (nthN false l (node + 1)) eqn:Eb; cbn [bitN].
      * change (1 =? 1) with true. cbn iota. destruct (any_close lk B l bt Hlk Hb Hfit node Hn) as (c & Ec & Hc). rewrite Ec. cbn [bind]. destruct c as [c|].
        -- destruct (proj1 (Hc c) eq_refl) as (s0 & Hs & Es). pose proof (len_enc2 s0) as L2. rewrite sub_ok by lia. cbn [bind].
           assert (Last : exists cs s, s0 = Node (cs ++ [s])).
           { destruct s0 as [cs0]. destruct (exists_last (l := cs0)) as (cs & s & ->); [|eauto]. intros ->. destruct Hs as (a & b & -> & <-). rewrite nthN_app_ge in Eb. discriminate. }
           destruct Last as (cs & s & ->).
           assert (Hls : tree_at l (node + 1 + lenN (encs cs)) s).
           { destruct Hs as (a & b & -> & <-). rewrite enc_node, encs_app, encs_cons. cbn [encs flat_map]. exists (a ++ [true] ++ encs cs), ([false] ++ b). split; [|rewrite !lenN_app; cbn; lia]. rewrite app_nil_r. now repeat rewrite <- app_assoc. }
           rewrite len_enc, encs_app, encs_cons, app_nil_r, lenN_app in Es. destruct (tree_at_ex _ _ _ Hls) as (T1 & T2 & T3 & _). pose proof (len_enc2 s) as L3. replace (node + 1 + lenN (encs cs) + lenN (enc s) - 1) with (c - 1) in T3 by lia.
           destruct (HO (c - 1)) as (o & E & Ho); [lia|auto|]. exists o. split; [auto|].
           assert (E1 : o = Some (node + 1 + lenN (encs cs))) by (apply Ho; exists s; split; [auto|lia]). intros x. rewrite E1. split.
           ++ intros H. injection H as <-. exists cs, s. auto.
           ++ intros (cs' & s' & Hs' & ->). change (flat_map enc cs') with (encs cs'). f_equal.
              assert (Hls' : tree_at l (node + 1 + lenN (encs cs')) s').
              { destruct Hs' as (a & b & -> & <-). rewrite enc_node, encs_app, encs_cons. cbn [encs flat_map]. exists (a ++ [true] ++ encs cs'), ([false] ++ b). split; [|rewrite !lenN_app; cbn; lia]. rewrite app_nil_r. now repeat rewrite <- app_assoc. }
              pose proof (tree_at_fun _ _ _ _ Hs Hs') as E2. rewrite !len_enc, !encs_app, !encs_cons, !app_nil_r, !lenN_app in E2.
              assert (E3 : o = Some (node + 1 + lenN (encs cs'))) by (apply Ho; exists s'; split; [auto|lia]). rewrite E1 in E3. now injection E3.
        -- exists None. split; [auto|]. intros x. split; [discriminate|]. intros (cs & s & Hs & _). pose proof (len_enc2 (Node (cs ++ [s]))) as L2. assert (H' : @None N = Some (node + lenN (enc (Node (cs ++ [s]))) - 1)) by (apply Hc; eexists; split; [exact Hs|lia]). discriminate.
      * change (0 =? 1) with false. cbn iota. exists None. split; [auto|]. intros x. split; [discriminate|]. intros (cs & s & (a & b & -> & <-) & _). rewrite nthN_app_ge, nthN_app_lt, enc_second in Eb by (rewrite len_enc; lia). destruct cs; discriminate.
    + exists None. split; [auto|]. intros x. split; [discriminate|]. intros (cs & s & Hs & _). destruct (tree_at_ex _ _ _ Hs) as (T1 & _). pose proof (len_enc2 (Node (cs ++ [s]))). lia.
  - unfold bp_level_prev. destruct (C42_partial lk B l bt node 1 Hlk Hb Hal Hin ltac:(lia)) as (o & E & Ho). rewrite E. cbn [bind]. destruct o as [c|]; cbn [is_bwd] in Ho.
    + destruct Ho as (A & C & D). assert (Up : (excess_before l (c + 1) <= excess_before l node)%Z).
      { destruct (Z.leb_spec (excess_before l (c + 1)) (excess_before l node)) as [|Hm]; [auto|exfalso]. destruct (N.eq_dec (c + 1) node) as [Eq|]; [rewrite Eq in Hm; lia|].
        destruct (ex_ivt l (c + 1) (node - c - 1) (excess_before l node + 1 - excess_before l (c + 1))) as (j & J1 & J2); [replace (c + 1 + (node - c - 1)) with node by lia; lia|].
        destruct (N.eq_dec j node) as [->|]; [lia|]. apply (D j); [lia|lia|lia]. }
      assert (Hc0 : nthN false l c = false) by (rewrite ex_succ in Up by lia; destruct (nthN false l c); cbn [paren] in Up; [lia|auto]).
      assert (Ec1 : excess_before l (c + 1) = excess_before l node) by (rewrite ex_succ, Hc0 by lia; cbn [paren]; lia).
      assert (Dn : forall c', c < c' -> c' < node -> nthN false l c' = false -> excess_before l (c' + 1) <> excess_before l node).
      { intros c' C1 C2 C3 C4. apply (D c' C1 C2). rewrite ex_succ, C3 in C4 by lia. cbn [paren] in C4. lia. }
      destruct (HO c) as (o & E' & Ho'); [lia|auto|]. exists o. split; [auto|]. intros m. rewrite Ho'. split.
      * intros (t & Ht & Et). exists c, t. auto 10.
      * intros (c' & t & C1 & C2 & C3 & C4 & Ht & Et). assert (c' = c). { destruct (N.lt_trichotomy c c') as [Lc|[Lc|Lc]]; [exfalso; now apply (Dn c')|auto|exfalso; now apply (C4 c)]. } subst c'. exists t. auto.
    + exists None. split; [auto|]. intros m. split; [discriminate|]. intros (c & t & C1 & C2 & C3 & _). exfalso. apply (Ho c C1). rewrite ex_succ, C2 in C3 by lia. cbn [paren] in C3. lia.
  - intros k Hk. unfold bp_level_ancestor. destruct k as [|k].
    + exists (Some node). split; [reflexivity|]. intros p. cbn [outwards]. split; [intros H; now injection H|now intros ->].
    + destruct (N.eqb_spec (N.of_nat (S k)) 0); [lia|]. assert (Ei : as_i64 (N.of_nat (S k)) = Z.of_nat (S k)).
      { unfold as_i64. destruct (N.ltb_spec (N.of_nat (S k)) (2 ^ 63)) as [|Hb']; [lia|]. change (2 ^ 63) with 9223372036854775808 in Hb'. lia. }
      rewrite Ei, i64_ok by lia. cbn [bind]. destruct (C42_partial lk B l bt node (- Z.of_nat (S k)) Hlk Hb Hal Hin ltac:(lia)) as (o & E & Ho). exists o. split; [auto|]. apply bwd_outwards; [lia|auto].
Qed.

Lemma collect_panic {S A C} (R : S -> list A -> Prop) next (f : A -> res C) :
  (forall s l, R s l -> exists s', next s = Ok (s', getN l 0) /\ R s' (dropN 1 l)) ->
  forall l s fuel, R s l -> (length l < fuel)%nat -> (forall x, In x l -> f x = Panic \/ exists y, f x = Ok y) -> (exists x, In x l /\ f x = Panic) -> collect fuel (map_next next f) s = Panic.
Proof.
  intros Hstep. induction l as [|x l IH]; intros s fuel HR Hf Hx (y & Hy & Ey); [destruct Hy|]. destruct fuel as [|fuel]; [cbn in Hf; lia|]. cbn [collect]. destruct (Hstep s _ HR) as (s' & E & HR'). unfold map_next at 1. rewrite E. cbn [bind]. change (getN (x :: l) 0) with (Some x). cbn beta iota.
  destruct (Hx x (or_introl eq_refl)) as [Ex|(z & Ex)]; rewrite Ex; cbn [bind]; [reflexivity|]. rewrite (IH s'); [reflexivity|exact HR'|cbn in Hf; lia|intros; apply Hx; now right|].
  exists y. split; [|auto]. destruct Hy as [->|]; [congruence|auto].
Qed.
Lemma nthN_default {A} (d d' : A) l i : i < lenN l -> nthN d l i = nthN d' l i.
Proof. intros H. unfold nthN. apply nth_indep. unfold lenN in H. lia. Qed.
Lemma In_closing l x : In x (positions false l) <-> x < lenN l /\ nthN false l x = false.
Proof.
  unfold positions. rewrite positions_from_In, N.sub_0_r, N.add_0_l. cbn [negb]. split.
  - intros (_ & H & E). split; [auto|]. now rewrite (nthN_default false true).
  - intros (H & E). split; [lia|]. split; [auto|]. now rewrite (nthN_default true false).
Qed.
(** The post-order iterator yields the opening parenthesis of every closing one, in the order of the
    closing ones, and panics if one of them has none. *)
Theorem C133_post_order lk B l bt :
  a_lookup lk -> aligned lk B -> built_from B l bt -> (Z.of_N (lenN l) + 2 <= 9223372036854775807)%Z ->
  let matches i j := exists s, tree_at l i s /\ j + 1 = i + lenN (enc s) in
  (forall f, (forall j, j < lenN l -> nthN false l j = false -> matches (f j) j) -> bp_dfs_post_list lk B bt = Ok (map f (positions false l))) /\
  (forall j, j < lenN l -> nthN false l j = false -> (forall i, ~ matches i j) -> bp_dfs_post_list lk B bt = Panic).
Proof.
  intros Hlk Hal Hb Hfit matches. pose proof (any_open lk B l bt Hlk Hal Hb Hfit) as HO.
  unfold bp_dfs_post_list. destruct (built_good _ _ _ Hb) as (bv & G & Hl & Hlb). destruct (sel_new_ok true bv (bp_vec bt) (bg_wf _ _ _ G) (bg_rs _ _ _ G)) as (it & E1 & HR). rewrite E1. cbn [bind].
  unfold posz in HR. cbn [negb] in HR. rewrite Hl in HR.
  assert (Hfu : (length (positions false l) < bp_fuel bt)%nat). { unfold bp_fuel. rewrite (any_len B l bt Hb). pose proof (lenN_positions false l) as HP. pose proof (count_le false l). unfold lenN in *. lia. }
  assert (Hstep : forall s l0, sel_R true bv (bp_vec bt) s l0 -> exists s', sel_next true (bp_vec bt) s = Ok (s', getN l0 0) /\ sel_R true bv (bp_vec bt) s' (dropN 1 l0)) by (intros s l0; apply sel_next_ok; apply G).
  split.
  - intros f Hf. eapply (collect_ok _ _ (map_step (sel_R true bv (bp_vec bt)) (sel_next true (bp_vec bt)) (bp_open_item lk B bt) f Hstep)); [|now rewrite map_length].
    exists (positions false l). split; [exact HR|]. split; [|reflexivity]. intros x Hx. apply In_closing in Hx. destruct Hx as [X1 X2]. unfold bp_open_item. destruct (HO x X1 X2) as (o & E & Ho). rewrite E. cbn [bind].
    rewrite (proj2 (Ho (f x)) (Hf x X1 X2)). reflexivity.
  - intros j J1 J2 J3. apply (collect_panic (sel_R true bv (bp_vec bt)) _ _ Hstep (positions false l)); auto.
    + intros x Hx. apply In_closing in Hx. destruct Hx as [X1 X2]. unfold bp_open_item. destruct (HO x X1 X2) as (o & E & Ho). rewrite E. cbn [bind]. destruct o; eauto.
    + exists j. split; [now apply In_closing|]. unfold bp_open_item. destruct (HO j J1 J2) as (o & E & Ho). rewrite E. cbn [bind]. destruct o as [i|]; [|auto]. exfalso. apply (J3 i). now apply Ho.
Qed.

(** "())(()": the closing parenthesis at 2 and the opening one at 3 have no partner. *)
Definition ex_open : list bool := [true; false; false; true; true; false].
Example C133_ex :
  tree_at ex_open 4 (Node []) /\ inside ex_open 3 4 /\ (forall s, ~ tree_at ex_open 3 s) /\ aligned lookup8 4 /\
  (let* t := mk 4 ex_open in let* a := bp_parent lookup8 4 t 4 in let* b := bp_subtree_size lookup8 4 t 3 in let* c := bp_subtree_size lookup8 4 t 4 in
   let* d := bp_depth t 3 in let* e := bp_children_list lookup8 4 true t 3 in let* f := bp_is_ancestor lookup8 4 t 3 4 in Ok (a, b, c, d, e, f)) = Ok (Some 3, None, Some 1, 0, [4], None) /\
  (let* t := mk 4 ex_open in bp_dfs_post_list lookup8 4 t) = Panic.
Proof.
  split; [exists [true; false; false; true], []; auto|]. split; [exists [true; false; false], [], [true; false]; auto|]. split; [|split; [right; reflexivity|split; vm_compute; reflexivity]].
  intros s H. destruct (tree_at_ex _ _ _ H) as (L & _ & _ & E & _). pose proof (len_enc2 s) as L2. change (lenN ex_open) with 6 in L. assert (H' : lenN (enc s) = 2 \/ lenN (enc s) = 3) by lia. destruct H' as [H'|H']; rewrite H' in E; discriminate.
Qed.
