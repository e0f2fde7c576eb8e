(** * Basic lemmas about vectors, words, counting. *)
From Verif Require Import Base Spec.

(** ** Monad *)
Lemma bind_Ok {A B} (a : A) (f : A -> res B) : bind (Ok a) f = f a.
Proof. reflexivity. Qed.

Lemma bind_inv {A B} (m : res A) (f : A -> res B) b :
  bind m f = Ok b -> exists a, m = Ok a /\ f a = Ok b.
Proof. destruct m; cbn; intros H; try discriminate; eauto. Qed.

Lemma sub_ok a b : b <= a -> sub a b = Ok (a - b).
Proof. unfold sub. intros H. destruct (N.leb_spec b a); [reflexivity | lia]. Qed.

Lemma add64_ok a b : a + b < U64 -> add64 a b = Ok (a + b).
Proof. unfold add64. intros H. destruct (N.ltb_spec (a + b) U64); [reflexivity | lia]. Qed.

Lemma mul64_ok a b : a * b < U64 -> mul64 a b = Ok (a * b).
Proof. unfold mul64. intros H. destruct (N.ltb_spec (a * b) U64); [reflexivity | lia]. Qed.

Lemma assert_true b : b = true -> assert b = Ok tt.
Proof. intros ->. reflexivity. Qed.

(** ** Lists indexed by N *)
Definition nthN {A} (d : A) (l : list A) (i : N) : A := nth (N.to_nat i) l d.

Lemma lenN_nil {A} : lenN (@nil A) = 0.
Proof. reflexivity. Qed.
Lemma lenN_cons {A} (a : A) l : lenN (a :: l) = lenN l + 1.
Proof. unfold lenN. cbn [length]. lia. Qed.
Lemma lenN_app {A} (l m : list A) : lenN (l ++ m) = lenN l + lenN m.
Proof. unfold lenN. rewrite app_length. lia. Qed.
Lemma lenN_map {A B} (f : A -> B) l : lenN (map f l) = lenN l.
Proof. unfold lenN. now rewrite map_length. Qed.
Lemma lenN_repeat {A} (a : A) n : lenN (repeat a n) = N.of_nat n.
Proof. unfold lenN. now rewrite repeat_length. Qed.
Lemma lenN_replicate {A} (a : A) n : lenN (replicate n a) = n.
Proof. unfold replicate. rewrite lenN_repeat. lia. Qed.
Lemma lenN_0_nil {A} (l : list A) : lenN l = 0 -> l = [].
Proof. destruct l; [reflexivity|]. rewrite lenN_cons. lia. Qed.
Lemma lenN_range a b : lenN (range a b) = b - a.
Proof. unfold range. rewrite lenN_map. unfold lenN. rewrite seq_length. lia. Qed.
Lemma lenN_set_nth {A} (l : list A) n v : lenN (set_nth l n v) = lenN l.
Proof.
  revert n. induction l as [|x l IH]; intros [|n]; cbn [set_nth]; rewrite ?lenN_cons; auto.
  now rewrite IH.
Qed.
Lemma lenN_takeN {A} n (l : list A) : lenN (takeN n l) = N.min n (lenN l).
Proof. unfold takeN, lenN. rewrite firstn_length. lia. Qed.
Lemma lenN_dropN {A} n (l : list A) : lenN (dropN n l) = lenN l - n.
Proof. unfold dropN, lenN. rewrite skipn_length. lia. Qed.
Lemma lenN_sliceN {A} a n (l : list A) : a + n <= lenN l -> lenN (sliceN a n l) = n.
Proof. intros. unfold sliceN. rewrite lenN_takeN, lenN_dropN. lia. Qed.
Lemma lenN_rev {A} (l : list A) : lenN (rev l) = lenN l.
Proof. unfold lenN. now rewrite rev_length. Qed.

Lemma idx_ok {A} (d : A) l i : i < lenN l -> idx l i = Ok (nthN d l i).
Proof.
  intros H. unfold idx. destruct (N.ltb_spec i (lenN l)); [|lia].
  unfold nthN. rewrite (nth_error_nth' l d); [reflexivity|]. unfold lenN in *; lia.
Qed.

Lemma idx_panic {A} (l : list A) i : lenN l <= i -> idx l i = Panic.
Proof. intros H. unfold idx. destruct (N.ltb_spec i (lenN l)); [lia|reflexivity]. Qed.

Lemma idx_inv {A} (l : list A) i a : idx l i = Ok a -> i < lenN l /\ forall d, nthN d l i = a.
Proof.
  intros H. unfold idx in H. destruct (N.ltb_spec i (lenN l)); [|discriminate].
  split; auto. intros d. destruct (nth_error l (N.to_nat i)) eqn:E; [|discriminate].
  injection H as <-. unfold nthN. now apply nth_error_nth.
Qed.

Lemma getN_ok {A} (d : A) l i : i < lenN l -> getN l i = Some (nthN d l i).
Proof.
  intros H. unfold getN. destruct (N.ltb_spec i (lenN l)); [|lia].
  unfold nthN. apply nth_error_nth'. unfold lenN in *; lia.
Qed.
Lemma getN_none {A} (l : list A) i : lenN l <= i -> getN l i = None.
Proof. intros H. unfold getN. destruct (N.ltb_spec i (lenN l)); [lia|reflexivity]. Qed.
Lemma getN_Some_inv {A} (l : list A) i a : getN l i = Some a -> i < lenN l /\ forall d, nthN d l i = a.
Proof.
  intros H. unfold getN in H. destruct (N.ltb_spec i (lenN l)); [|discriminate].
  split; auto. intros d. unfold nthN. now apply nth_error_nth.
Qed.
Lemma getN_None_inv {A} (l : list A) i : getN l i = None -> lenN l <= i.
Proof.
  intros H. unfold getN in H. destruct (N.ltb_spec i (lenN l)); [|lia].
  apply nth_error_None in H. unfold lenN in *. lia.
Qed.
Lemma getN_nth_error {A} (l : list A) i : getN l i = nth_error l (N.to_nat i).
Proof.
  unfold getN. destruct (N.ltb_spec i (lenN l)); [reflexivity|].
  symmetry. apply nth_error_None. unfold lenN in *. lia.
Qed.
Lemma getN_In {A} (l : list A) i a : getN l i = Some a -> In a l.
Proof. rewrite getN_nth_error. apply nth_error_In. Qed.
Lemma In_getN {A} (l : list A) a : In a l -> exists i, i < lenN l /\ getN l i = Some a.
Proof.
  intros H. apply In_nth_error in H as [n Hn]. exists (N.of_nat n).
  assert (n < length l)%nat by (apply nth_error_Some; congruence).
  split; [unfold lenN; lia|]. rewrite getN_nth_error. now rewrite Nnat.Nat2N.id.
Qed.

Lemma set_idx_ok {A} (l : list A) i v :
  i < lenN l -> set_idx l i v = Ok (set_nth l (N.to_nat i) v).
Proof. intros H. unfold set_idx. destruct (N.ltb_spec i (lenN l)); [reflexivity|lia]. Qed.

Lemma nthN_set_nth {A} (d : A) l i j v :
  i < lenN l -> nthN d (set_nth l (N.to_nat i) v) j = if j =? i then v else nthN d l j.
Proof.
  intros H. unfold nthN.
  assert (Hi : (N.to_nat i < length l)%nat) by (unfold lenN in *; lia).
  assert (E : (j =? i) = (N.to_nat j =? N.to_nat i)%nat) by lia. rewrite E. clear E.
  revert Hi. generalize (N.to_nat i) (N.to_nat j). clear H i j.
  induction l as [|x l IH]; intros i j Hi; cbn [length] in Hi; [lia|].
  destruct i, j; cbn [set_nth nth Nat.eqb]; auto.
  apply IH. lia.
Qed.

Lemma nthN_app {A} (d : A) l m i :
  nthN d (l ++ m) i = if i <? lenN l then nthN d l i else nthN d m (i - lenN l).
Proof.
  unfold nthN, lenN. destruct (N.ltb_spec i (N.of_nat (length l))).
  - apply app_nth1. lia.
  - rewrite app_nth2 by lia. f_equal. lia.
Qed.

Lemma nthN_overflow {A} (d : A) l i : lenN l <= i -> nthN d l i = d.
Proof. intros. unfold nthN. apply nth_overflow. unfold lenN in *. lia. Qed.

Lemma nthN_cons {A} (d a : A) l i : nthN d (a :: l) i = if i =? 0 then a else nthN d l (i - 1).
Proof.
  unfold nthN. destruct (N.eqb_spec i 0) as [->|Hi]; [reflexivity|].
  replace (N.to_nat i) with (S (N.to_nat (i - 1))) by lia. reflexivity.
Qed.

Lemma nthN_map {A B} (f : A -> B) d d' l i :
  i < lenN l -> nthN d' (map f l) i = f (nthN d l i).
Proof.
  intros H. unfold nthN. rewrite nth_indep with (d' := f d).
  - apply map_nth.
  - rewrite map_length. unfold lenN in H. lia.
Qed.

Lemma nthN_range a b i : i < b - a -> nthN 0 (range a b) i = a + i.
Proof.
  intros H. unfold range. rewrite nthN_map with (d := O).
  - unfold nthN. rewrite seq_nth by lia. lia.
  - unfold lenN. rewrite seq_length. lia.
Qed.

Lemma nthN_replicate {A} (d a : A) n i : i < n -> nthN d (replicate n a) i = a.
Proof.
  intros. unfold nthN, replicate. rewrite nth_indep with (d' := a).
  - apply nth_repeat.
  - rewrite repeat_length. lia.
Qed.

Lemma nthN_takeN {A} (d : A) n l i : i < n -> nthN d (takeN n l) i = nthN d l i.
Proof.
  intros H. unfold nthN, takeN.
  assert (Hi : (N.to_nat i < N.to_nat n)%nat) by lia.
  revert Hi. generalize (N.to_nat i) (N.to_nat n). clear.
  induction l as [|x l IH]; intros i n Hi.
  - rewrite firstn_nil. reflexivity.
  - destruct n; [lia|]. destruct i; cbn; auto. apply IH. lia.
Qed.

Lemma nthN_dropN {A} (d : A) n l i : nthN d (dropN n l) i = nthN d l (n + i).
Proof.
  unfold nthN, dropN.
  rewrite Nnat.N2Nat.inj_add. generalize (N.to_nat i) (N.to_nat n). clear.
  induction l as [|x l IH]; intros i n.
  - rewrite skipn_nil. destruct (n + i)%nat; destruct i; reflexivity.
  - destruct n; cbn [skipn]; [reflexivity|]. cbn. apply IH.
Qed.

Lemma nthN_sliceN {A} (d : A) a n l i : i < n -> nthN d (sliceN a n l) i = nthN d l (a + i).
Proof. intros. unfold sliceN. rewrite nthN_takeN by auto. apply nthN_dropN. Qed.

Lemma list_ext {A} (d : A) (l m : list A) :
  lenN l = lenN m -> (forall i, i < lenN l -> nthN d l i = nthN d m i) -> l = m.
Proof.
  intros Hlen H. apply nth_ext with (d := d) (d' := d).
  - unfold lenN in Hlen. lia.
  - intros n Hn. specialize (H (N.of_nat n)). unfold nthN, lenN in H.
    rewrite Nnat.Nat2N.id in H. apply H. lia.
Qed.

Lemma In_nthN {A} (d : A) l i : i < lenN l -> In (nthN d l i) l.
Proof. intros. unfold nthN. apply nth_In. unfold lenN in *. lia. Qed.

Lemma Forall_nthN {A} (P : A -> Prop) d l i : Forall P l -> i < lenN l -> P (nthN d l i).
Proof. intros H Hi. rewrite Forall_forall in H. apply H. now apply In_nthN. Qed.

Lemma Forall_set_nth {A} (P : A -> Prop) l n v : Forall P l -> P v -> Forall P (set_nth l n v).
Proof.
  intros H Hv. revert n. induction H as [|x l Hx H IH]; intros [|n]; cbn; constructor; auto.
Qed.

Lemma In_range a b i : In i (range a b) <-> a <= i /\ i < b.
Proof.
  unfold range. rewrite in_map_iff. split.
  - intros (n & <- & Hn). apply in_seq in Hn. lia.
  - intros H. exists (N.to_nat (i - a)). split; [lia|]. apply in_seq. lia.
Qed.

Lemma range_nil a b : b <= a -> range a b = [].
Proof. intros. unfold range. replace (b - a) with 0 by lia. reflexivity. Qed.

Lemma range_cons a b : a < b -> range a b = a :: range (a + 1) b.
Proof.
  intros H. unfold range. replace (N.to_nat (b - a)) with (S (N.to_nat (b - (a + 1)))) by lia.
  cbn [seq map]. f_equal; [lia|]. rewrite <- seq_shift, map_map. apply map_ext. intros. lia.
Qed.

Lemma range_snoc a b : a < b -> range a b = range a (b - 1) ++ [b - 1].
Proof.
  intros H. unfold range. replace (N.to_nat (b - a)) with (S (N.to_nat (b - 1 - a))) by lia.
  rewrite seq_S, map_app. cbn [map app]. do 2 f_equal. lia.
Qed.

Lemma range_app a b c : a <= b -> b <= c -> range a c = range a b ++ range b c.
Proof.
  intros H1 H2. apply list_ext with (d := 0).
  - rewrite lenN_app, !lenN_range. lia.
  - intros i Hi. rewrite lenN_range in Hi. rewrite nthN_range, nthN_app, lenN_range by auto.
    destruct (N.ltb_spec i (b - a)); rewrite nthN_range; lia.
Qed.

Lemma takeN_app_exact {A} (l m : list A) : takeN (lenN l) (l ++ m) = l.
Proof. unfold takeN, lenN. rewrite Nnat.Nat2N.id, firstn_app, firstn_all, Nat.sub_diag. cbn. apply app_nil_r. Qed.
Lemma dropN_app_exact {A} (l m : list A) : dropN (lenN l) (l ++ m) = m.
Proof. unfold dropN, lenN. rewrite Nnat.Nat2N.id, skipn_app, skipn_all, Nat.sub_diag. reflexivity. Qed.
Lemma dropN_app_ge {A} n (l m : list A) : lenN l <= n -> dropN n (l ++ m) = dropN (n - lenN l) m.
Proof.
  intros. unfold dropN, lenN in *. rewrite skipn_app, skipn_all2 by lia. cbn. f_equal. lia.
Qed.
Lemma dropN_app_le {A} n (l m : list A) : n <= lenN l -> dropN n (l ++ m) = dropN n l ++ m.
Proof.
  intros. unfold dropN, lenN in *. rewrite skipn_app.
  replace (N.to_nat n - length l)%nat with O by lia. reflexivity.
Qed.
Lemma takeN_app_le {A} n (l m : list A) : n <= lenN l -> takeN n (l ++ m) = takeN n l.
Proof.
  intros. unfold takeN, lenN in *. rewrite firstn_app.
  replace (N.to_nat n - length l)%nat with O by lia. cbn. apply app_nil_r.
Qed.
Lemma takeN_app_ge {A} n (l m : list A) : lenN l <= n -> takeN n (l ++ m) = l ++ takeN (n - lenN l) m.
Proof.
  intros. unfold takeN, lenN in *. rewrite firstn_app, firstn_all2 by lia. do 2 f_equal. lia.
Qed.
Lemma takeN_dropN {A} n (l : list A) : takeN n l ++ dropN n l = l.
Proof. apply firstn_skipn. Qed.
Lemma takeN_all {A} n (l : list A) : lenN l <= n -> takeN n l = l.
Proof. intros. unfold takeN. apply firstn_all2. unfold lenN in *. lia. Qed.
Lemma dropN_all {A} n (l : list A) : lenN l <= n -> dropN n l = [].
Proof. intros. unfold dropN. apply skipn_all2. unfold lenN in *. lia. Qed.
Lemma takeN_0 {A} (l : list A) : takeN 0 l = [].
Proof. reflexivity. Qed.
Lemma dropN_0 {A} (l : list A) : dropN 0 l = l.
Proof. reflexivity. Qed.
Lemma takeN_takeN {A} n m (l : list A) : n <= m -> takeN n (takeN m l) = takeN n l.
Proof. intros. unfold takeN. rewrite firstn_firstn. f_equal. lia. Qed.
Lemma takeN_succ {A} (d : A) n (l : list A) : n < lenN l -> takeN (n + 1) l = takeN n l ++ [nthN d l n].
Proof.
  intros H. apply list_ext with (d := d).
  - rewrite lenN_app, !lenN_takeN. cbn. lia.
  - intros i Hi. rewrite lenN_takeN in Hi. rewrite nthN_takeN by lia.
    rewrite nthN_app, lenN_takeN. destruct (N.ltb_spec i (N.min n (lenN l))).
    + now rewrite nthN_takeN by lia.
    + replace (i - N.min n (lenN l)) with 0 by lia. unfold nthN at 2. cbn. f_equal. lia.
Qed.

Lemma slice_chk_ok {A} (l : list A) a b :
  a <= b -> b <= lenN l -> slice_chk l a b = Ok (sliceN a (b - a) l).
Proof.
  intros. unfold slice_chk. destruct (N.leb_spec a b); [|lia].
  destruct (N.leb_spec b (lenN l)); [reflexivity|lia].
Qed.

(** ** forM *)
Lemma forM_app {A S} (l m : list A) (s : S) f :
  forM (l ++ m) s f = let* s' := forM l s f in forM m s' f.
Proof.
  revert s. induction l as [|x l IH]; intros s; cbn; [reflexivity|].
  destruct (f s x); cbn; auto.
Qed.

(** Loop invariant rule for a loop over a range. *)
Lemma forM_range_inv {S} (P : N -> S -> Prop) a b s f :
  a <= b -> P a s ->
  (forall i s, a <= i -> i < b -> P i s -> exists s', f s i = Ok s' /\ P (i + 1) s') ->
  exists s', forM (range a b) s f = Ok s' /\ P b s'.
Proof.
  intros Hab HP Hstep.
  remember (N.to_nat (b - a)) as n eqn:En. revert a s Hab HP Hstep En.
  induction n as [|n IH]; intros a s Hab HP Hstep En.
  - assert (a = b) by lia. subst. rewrite range_nil by lia. cbn. eauto.
  - rewrite range_cons by lia. cbn [forM].
    destruct (Hstep a s) as (s1 & E1 & HP1); auto; try lia. rewrite E1. cbn [bind].
    apply IH; auto; try lia. intros i s2 H1 H2. apply Hstep; lia.
Qed.

(** Loop invariant rule for a loop over a list, with the processed prefix. *)
Lemma forM_list_inv {A S} (P : list A -> S -> Prop) (l : list A) s f :
  P [] s ->
  (forall pre x post s, l = pre ++ x :: post -> P pre s ->
     exists s', f s x = Ok s' /\ P (pre ++ [x]) s') ->
  exists s', forM l s f = Ok s' /\ P l s'.
Proof.
  intros H0 Hstep.
  cut (forall pre post s, l = pre ++ post -> P pre s -> exists s', forM post s f = Ok s' /\ P l s').
  { intros Hc. apply (Hc [] l s); auto. }
  intros pre post. revert pre. induction post as [|x post IH]; intros pre s1 El HP.
  - rewrite app_nil_r in El. subst. cbn. eauto.
  - cbn [forM]. destruct (Hstep pre x post s1 El HP) as (s2 & E2 & HP2).
    rewrite E2. cbn [bind]. apply (IH (pre ++ [x])); auto. now rewrite <- app_assoc.
Qed.

(** ** Counting *)
(** Number of [i < n] with [f i]. *)
Definition cnt (f : N -> bool) (n : N) : N :=
  N.recursion 0 (fun i acc => acc + (if f i then 1 else 0)) n.

Lemma cnt_0 f : cnt f 0 = 0.
Proof. reflexivity. Qed.
Lemma cnt_succ f n : cnt f (n + 1) = cnt f n + (if f n then 1 else 0).
Proof.
  unfold cnt. rewrite N.add_1_r. rewrite N.recursion_succ with (Aeq := eq); auto.
  intros ? ? -> ? ? ->. reflexivity.
Qed.

Lemma N_ind1 (P : N -> Prop) : P 0 -> (forall n, P n -> P (n + 1)) -> forall n, P n.
Proof. intros H0 HS. apply N.peano_ind; auto. intros n Hn. rewrite <- N.add_1_r. auto. Qed.

Lemma cnt_ext f g n : (forall i, i < n -> f i = g i) -> cnt f n = cnt g n.
Proof.
  revert n. induction n as [|n IH] using N_ind1; intros H; [reflexivity|].
  rewrite !cnt_succ, IH by (intros; apply H; lia). now rewrite (H n) by lia.
Qed.
Lemma cnt_le f n : cnt f n <= n.
Proof. induction n as [|n IH] using N_ind1; [reflexivity|]. rewrite cnt_succ. destruct (f n); lia. Qed.
Lemma cnt_mono f n m : n <= m -> cnt f n <= cnt f m.
Proof.
  intros H. revert H. induction m as [|m IH] using N_ind1; intros H.
  - now replace n with 0 by lia.
  - destruct (N.eq_dec n (m + 1)) as [->|]; [lia|]. rewrite cnt_succ. specialize (IH ltac:(lia)). lia.
Qed.
Lemma cnt_add f a b : cnt f (a + b) = cnt f a + cnt (fun i => f (a + i)) b.
Proof.
  induction b as [|b IH] using N_ind1.
  - rewrite cnt_0, !N.add_0_r. reflexivity.
  - rewrite N.add_assoc, !cnt_succ, IH. lia.
Qed.
Lemma cnt_negb f n : cnt (fun i => negb (f i)) n = n - cnt f n.
Proof.
  induction n as [|n IH] using N_ind1; [reflexivity|].
  rewrite !cnt_succ, IH. pose proof (cnt_le f n). destruct (f n); cbn; lia.
Qed.
Lemma cnt_diff_le f a b : a <= b -> cnt f b <= cnt f a + (b - a).
Proof.
  intros. replace b with (a + (b - a)) at 1 by lia. rewrite cnt_add.
  pose proof (cnt_le (fun i => f (a + i)) (b - a)). lia.
Qed.
Lemma cnt_false n : cnt (fun _ => false) n = 0.
Proof. induction n as [|n IH] using N_ind1; [reflexivity|]. rewrite cnt_succ, IH. reflexivity. Qed.
Lemma cnt_true n : cnt (fun _ => true) n = n.
Proof. induction n as [|n IH] using N_ind1; [reflexivity|]. rewrite cnt_succ, IH. reflexivity. Qed.

(** strict monotonicity at a set position *)
Lemma cnt_lt f p q : f p = true -> p < q -> cnt f p < cnt f q.
Proof.
  intros Hp Hq. pose proof (cnt_mono f (p + 1) q ltac:(lia)) as H.
  rewrite cnt_succ, Hp in H. lia.
Qed.
Lemma cnt_inj f p q : f p = true -> f q = true -> cnt f p = cnt f q -> p = q.
Proof.
  intros Hp Hq H. destruct (N.lt_total p q) as [L|[E|L]]; auto.
  - pose proof (cnt_lt f p q Hp L). lia.
  - pose proof (cnt_lt f q p Hq L). lia.
Qed.
(** existence of the k-th set position *)
Lemma cnt_exists f n k : k < cnt f n -> exists p, p < n /\ f p = true /\ cnt f p = k.
Proof.
  revert k. induction n as [|n IH] using N_ind1; intros k H.
  - rewrite cnt_0 in H. lia.
  - rewrite cnt_succ in H. destruct (N.ltb_spec k (cnt f n)) as [L|L].
    + destruct (IH k L) as (p & ? & ? & ?). exists p. repeat split; auto. lia.
    + destruct (f n) eqn:E; [|lia]. exists n. repeat split; auto; lia.
Qed.

(** ** count and cnt *)
Definition bools (f : N -> bool) (n : N) : list bool := map f (range 0 n).

Lemma lenN_bools f n : lenN (bools f n) = n.
Proof. unfold bools. rewrite lenN_map, lenN_range. lia. Qed.
Lemma nthN_bools d f n i : i < n -> nthN d (bools f n) i = f i.
Proof.
  intros. unfold bools. rewrite nthN_map with (d := 0) by (rewrite lenN_range; lia).
  rewrite nthN_range by lia. reflexivity.
Qed.
Lemma bools_ext f g n : (forall i, i < n -> f i = g i) -> bools f n = bools g n.
Proof.
  intros H. apply list_ext with (d := false); rewrite !lenN_bools; auto.
  intros i Hi. rewrite !nthN_bools by auto. auto.
Qed.
Lemma bools_of_list d (l : list bool) : bools (nthN d l) (lenN l) = l.
Proof.
  apply list_ext with (d := d); rewrite lenN_bools; auto.
  intros. now rewrite nthN_bools.
Qed.
Lemma bools_succ f n : bools f (n + 1) = bools f n ++ [f n].
Proof.
  unfold bools. rewrite range_snoc by lia. rewrite map_app. cbn. repeat f_equal; lia.
Qed.
Lemma takeN_bools f n m : m <= n -> takeN m (bools f n) = bools f m.
Proof.
  intros. apply list_ext with (d := false).
  - rewrite lenN_takeN, !lenN_bools. lia.
  - intros i Hi. rewrite lenN_takeN, lenN_bools in Hi.
    rewrite nthN_takeN, !nthN_bools by lia. auto.
Qed.
Lemma dropN_bools f n m : m <= n -> dropN m (bools f n) = bools (fun i => f (m + i)) (n - m).
Proof.
  intros. apply list_ext with (d := false).
  - rewrite lenN_dropN, !lenN_bools. lia.
  - intros i Hi. rewrite lenN_dropN, lenN_bools in Hi.
    rewrite nthN_dropN, !nthN_bools by lia. auto.
Qed.
Lemma bools_app f n m : bools f (n + m) = bools f n ++ bools (fun i => f (n + i)) m.
Proof.
  rewrite <- (takeN_dropN n (bools f (n + m))), takeN_bools, dropN_bools by lia.
  do 2 f_equal. lia.
Qed.

Lemma count_app b l m : count b (l ++ m) = count b l + count b m.
Proof. induction l as [|x l IH]; cbn [app count]; [reflexivity|]. rewrite IH. lia. Qed.
Lemma count_bools b f n : count b (bools f n) = cnt (fun i => Bool.eqb (f i) b) n.
Proof.
  induction n as [|n IH] using N_ind1; [reflexivity|].
  rewrite bools_succ, count_app, IH, cnt_succ. cbn. lia.
Qed.
Lemma count_true_false l : count true l + count false l = lenN l.
Proof. induction l as [|[] l IH]; [reflexivity| |]; rewrite lenN_cons; cbn [count Bool.eqb]. lia. lia. Qed.
Lemma count_le b l : count b l <= lenN l.
Proof. pose proof (count_true_false l). destruct b; lia. Qed.

Lemma cnt_eqb_true f n : cnt (fun i => Bool.eqb (f i) true) n = cnt f n.
Proof. apply cnt_ext. intros. now destruct (f i). Qed.
Lemma cnt_eqb_false f n : cnt (fun i => Bool.eqb (f i) false) n = n - cnt f n.
Proof. rewrite <- cnt_negb. apply cnt_ext. intros. now destruct (f i). Qed.

Lemma rank_spec_cnt b d l p :
  p <= lenN l -> rank_spec b l p = cnt (fun i => Bool.eqb (nthN d l i) b) p.
Proof.
  intros H. unfold rank_spec. rewrite <- (bools_of_list d l) at 1.
  rewrite takeN_bools by auto. apply count_bools.
Qed.
Lemma rank_spec_all b l p : lenN l <= p -> rank_spec b l p = count b l.
Proof. intros. unfold rank_spec. now rewrite takeN_all. Qed.

(** ** positions *)
Lemma positions_from_In b l i p :
  In p (positions_from b i l) <-> i <= p /\ p < i + lenN l /\ nthN (negb b) l (p - i) = b.
Proof.
  revert i. induction l as [|x l IH]; intros i; cbn [positions_from].
  - rewrite lenN_nil. cbn. lia.
  - assert (Hn : i + 1 <= p -> nthN (negb b) (x :: l) (p - i) = nthN (negb b) l (p - (i + 1))).
    { intros. rewrite nthN_cons. destruct (N.eqb_spec (p - i) 0); [lia|]. f_equal; lia. }
    assert (H0 : nthN (negb b) (x :: l) (i - i) = x) by now rewrite N.sub_diag.
    rewrite lenN_cons.
    destruct (Bool.eqb x b) eqn:E; [apply eqb_prop in E; subst|apply eqb_false_iff in E];
      cbn [In]; rewrite IH.
    + split.
      * intros [<-|(H1 & H2 & H3)]; [repeat split; auto; lia|].
        repeat split; try lia; now rewrite Hn by lia.
      * intros (H1 & H2 & H3). destruct (N.eq_dec i p) as [->|]; [now left|right].
        repeat split; try lia; now rewrite <- Hn by lia.
    + split.
      * intros (H1 & H2 & H3). repeat split; try lia; now rewrite Hn by lia.
      * intros (H1 & H2 & H3). destruct (N.eq_dec i p) as [->|]; [congruence|].
        repeat split; try lia; now rewrite <- Hn by lia.
Qed.

Lemma lenN_positions_from b l i : lenN (positions_from b i l) = count b l.
Proof.
  revert i. induction l as [|x l IH]; intros i; cbn [positions_from count]; [reflexivity|].
  destruct (Bool.eqb x b); rewrite ?lenN_cons, IH; lia.
Qed.
Lemma lenN_positions b l : lenN (positions b l) = count b l.
Proof. apply lenN_positions_from. Qed.

Lemma positions_from_app b i l m :
  positions_from b i (l ++ m) = positions_from b i l ++ positions_from b (i + lenN l) m.
Proof.
  revert i. induction l as [|x l IH]; intros i; cbn [positions_from app].
  - f_equal. rewrite lenN_nil. lia.
  - rewrite IH, lenN_cons. replace (i + 1 + lenN l) with (i + (lenN l + 1)) by lia.
    now destruct (Bool.eqb x b).
Qed.

(** characterisation of the k-th position *)
Lemma getN_positions b l k p :
  getN (positions b l) k = Some p <->
  p < lenN l /\ nthN (negb b) l p = b /\ count b (takeN p l) = k.
Proof.
  assert (Hfwd : p < lenN l -> nthN (negb b) l p = b -> count b (takeN p l) = k ->
                 getN (positions b l) k = Some p).
  { intros Hp Hb Hk. unfold positions.
    assert (El : l = takeN p l ++ b :: dropN (p + 1) l).
    { rewrite <- Hb at 1. rewrite <- (takeN_dropN (p + 1) l) at 1.
      rewrite (takeN_succ (negb b)) by auto. now rewrite <- app_assoc. }
    rewrite El at 1. rewrite positions_from_app. cbn [positions_from].
    rewrite eqb_reflx, lenN_takeN. replace (0 + N.min p (lenN l)) with p by lia.
    assert (Hlen : lenN (positions_from b 0 (takeN p l)) = k) by now rewrite lenN_positions_from.
    rewrite (getN_ok 0) by (rewrite lenN_app, lenN_cons; lia). f_equal.
    rewrite nthN_app, Hlen, N.ltb_irrefl, N.sub_diag. reflexivity. }
  split; [|intros (?&?&?); auto].
  intros H. pose proof (getN_In _ _ _ H) as HIn. unfold positions in HIn.
  apply positions_from_In in HIn as (_ & H2 & H3). rewrite N.sub_0_r in H3.
  repeat split; try lia; auto.
  set (k' := count b (takeN p l)).
  assert (H' : getN (positions b l) k' = Some p).
  { (* as above with k' *)
    clear Hfwd. unfold positions.
    assert (El : l = takeN p l ++ b :: dropN (p + 1) l).
    { rewrite <- H3 at 1. rewrite <- (takeN_dropN (p + 1) l) at 1.
      rewrite (takeN_succ (negb b)) by lia. now rewrite <- app_assoc. }
    rewrite El at 1. rewrite positions_from_app. cbn [positions_from].
    rewrite eqb_reflx, lenN_takeN. replace (0 + N.min p (lenN l)) with p by lia.
    assert (Hlen : lenN (positions_from b 0 (takeN p l)) = k') by now rewrite lenN_positions_from.
    rewrite (getN_ok 0) by (rewrite lenN_app, lenN_cons; lia). f_equal.
    rewrite nthN_app, Hlen, N.ltb_irrefl, N.sub_diag. reflexivity. }
  (* positions are strictly increasing, hence injective *)
  assert (Hnd : NoDup (positions b l)).
  { unfold positions. generalize 0 as i. clear. induction l as [|x l IH]; intros i; cbn [positions_from].
    - constructor.
    - destruct (Bool.eqb x b); auto. constructor; auto.
      intros HIn. apply positions_from_In in HIn. lia. }
  rewrite NoDup_nth_error in Hnd. rewrite getN_nth_error in H, H'.
  assert (N.to_nat k = N.to_nat k').
  { apply Hnd; [|congruence]. apply nth_error_Some. congruence. }
  fold k'. lia.
Qed.

Lemma select_spec_cnt b d l k p :
  p < lenN l -> nthN d l p = b -> cnt (fun i => Bool.eqb (nthN d l i) b) p = k ->
  select_spec b l k = p.
Proof.
  intros Hp Hb Hk. unfold select_spec.
  assert (E : getN (positions b l) k = Some p).
  { apply getN_positions. repeat split; auto.
    - rewrite <- Hb at 2. unfold nthN. apply nth_indep. unfold lenN in Hp. lia.
    - fold (rank_spec b l p). rewrite (rank_spec_cnt b d) by lia. auto. }
  now rewrite E.
Qed.
Lemma select_spec_over b l k : count b l <= k -> select_spec b l k = lenN l.
Proof. intros. unfold select_spec. rewrite getN_none; auto. now rewrite lenN_positions. Qed.

#[global] Arguments cnt : simpl never.
#[global] Arguments bools : simpl never.
#[global] Arguments range : simpl never.
#[global] Arguments nthN : simpl never.
