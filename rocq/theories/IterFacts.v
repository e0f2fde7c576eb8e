(** * Facts about the iterator specification: windows of a fixed list. *)
From Verif Require Import Base Spec BaseFacts IterSpec.

Lemma getN_app_l {A} (l m : list A) i : i < lenN l -> getN (l ++ m) i = getN l i.
Proof.
  intros H. rewrite !getN_nth_error. unfold lenN in H. apply nth_error_app1. lia.
Qed.
Lemma getN_rev {A} (l : list A) i : getN (rev l) i = if i <? lenN l then getN l (lenN l - 1 - i) else None.
Proof.
  destruct (N.ltb_spec i (lenN l)) as [L|L].
  - destruct l as [|d l0]; [cbn in L; lia|]. set (l := d :: l0) in *.
    rewrite (getN_ok d) by (rewrite lenN_rev; auto). rewrite (getN_ok d) by lia. f_equal.
    unfold nthN. rewrite rev_nth by (unfold lenN in L; lia). f_equal. unfold lenN. lia.
  - apply getN_none. now rewrite lenN_rev.
Qed.

Lemma getN_takeN {A} (l : list A) n i : getN (takeN n l) i = if i <? n then getN l i else None.
Proof.
  destruct (N.ltb_spec i n) as [L|L].
  - destruct (N.lt_ge_cases i (lenN l)) as [L'|L'].
    + destruct l as [|d l0]; [cbn in L'; lia|]. set (l := d :: l0) in *.
      rewrite !(getN_ok d) by (rewrite ?lenN_takeN; lia). now rewrite nthN_takeN.
    + rewrite !getN_none; auto. rewrite lenN_takeN. lia.
  - apply getN_none. rewrite lenN_takeN. lia.
Qed.
Lemma getN_dropN {A} (l : list A) n i : getN (dropN n l) i = getN l (n + i).
Proof.
  destruct (N.lt_ge_cases (n + i) (lenN l)) as [L|L].
  - destruct l as [|d l0]; [cbn in L; lia|]. set (l := d :: l0) in *.
    rewrite !(getN_ok d) by (rewrite ?lenN_dropN; lia). now rewrite nthN_dropN.
  - rewrite !getN_none; auto. rewrite lenN_dropN. lia.
Qed.
Lemma getN_sliceN {A} (l : list A) a n i : getN (sliceN a n l) i = if i <? n then getN l (a + i) else None.
Proof. unfold sliceN. now rewrite getN_takeN, getN_dropN. Qed.

Lemma dropN_dropN {A} a b (l : list A) : dropN a (dropN b l) = dropN (b + a) l.
Proof.
  unfold dropN. rewrite N2Nat.inj_add. generalize (N.to_nat a) (N.to_nat b). clear a b.
  intros a b. revert l. induction b as [|b IH]; intros l; [reflexivity|].
  destruct l; [now rewrite !skipn_nil|]. cbn. apply IH.
Qed.
Lemma takeN_min {A} a b (l : list A) : takeN a (takeN b l) = takeN (N.min a b) l.
Proof. unfold takeN. rewrite firstn_firstn. f_equal. lia. Qed.
Lemma dropN_takeN {A} a b (l : list A) : dropN a (takeN b l) = takeN (b - a) (dropN a l).
Proof. unfold takeN, dropN. rewrite skipn_firstn_comm. f_equal. lia. Qed.

Lemma sliceN_0 {A} a (l : list A) : sliceN a 0 l = [].
Proof. reflexivity. Qed.
Lemma sliceN_all {A} (l : list A) : sliceN 0 (lenN l) l = l.
Proof. unfold sliceN. rewrite dropN_0. apply takeN_all. lia. Qed.

Lemma INext_nth {A} (l : list A) : iter_spec l INext = iter_spec l (INth 0).
Proof. reflexivity. Qed.
Lemma INextBack_nth {A} (l : list A) : iter_spec l INextBack = iter_spec l (INthBack 0).
Proof. reflexivity. Qed.

Lemma window_nth {A} (P : list A) r n k : r + n <= lenN P ->
  iter_spec (sliceN r n P) (INth k) =
  if k <? n then (sliceN (r + k + 1) (n - k - 1) P, OItem (getN P (r + k))) else ([], OItem None).
Proof.
  intros H. cbn [iter_spec]. rewrite getN_sliceN.
  destruct (N.ltb_spec k n) as [L|L].
  - f_equal. unfold sliceN. rewrite dropN_takeN, dropN_dropN. f_equal; [lia|f_equal; lia].
  - f_equal. apply dropN_all. rewrite lenN_sliceN; lia.
Qed.
Lemma window_nth_back {A} (P : list A) r n k : r + n <= lenN P ->
  iter_spec (sliceN r n P) (INthBack k) =
  if k <? n then (sliceN r (n - k - 1) P, OItem (getN P (r + n - 1 - k))) else ([], OItem None).
Proof.
  intros H. cbn [iter_spec]. rewrite getN_rev, lenN_sliceN by auto.
  destruct (N.ltb_spec k n) as [L|L].
  - f_equal.
    + unfold sliceN. rewrite takeN_min. f_equal. lia.
    + f_equal. rewrite getN_sliceN. destruct (N.ltb_spec (n - 1 - k) n); [|lia]. f_equal. lia.
  - f_equal. replace (n - (k + 1)) with 0 by lia. reflexivity.
Qed.
Lemma window_len {A} (P : list A) r n : r + n <= lenN P ->
  iter_spec (sliceN r n P) ILen = (sliceN r n P, OLen n).
Proof. intros H. cbn [iter_spec]. now rewrite lenN_sliceN. Qed.

(** A modelled iterator whose states refine lists step by step has the specified outputs. *)
Lemma iter_refines {S A} (R : S -> list A -> Prop) (fwd bwd : bool) step :
  (forall s l op, R s l ->
     match op with
     | INth n => if fwd then n < lenN l else True
     | INthBack n => if bwd then n < lenN l else True
     | _ => True
     end ->
     exists s', step s op = Ok (s', snd (iter_spec l op)) /\ R s' (fst (iter_spec l op))) ->
  forall ops s l, R s l -> skips_inside fwd bwd l ops ->
    iter_run step s ops = Ok (iter_spec_run l ops).
Proof.
  intros Hstep ops. induction ops as [|op ops IH]; intros s l HR Hs; [reflexivity|].
  destruct Hs as [H1 H2]. cbn [iter_run iter_spec_run].
  destruct (Hstep s l op HR H1) as (s' & E & HR'). rewrite E. cbn [bind].
  rewrite (IH s' (fst (iter_spec l op))) by auto. cbn [bind].
  now destruct (iter_spec l op).
Qed.
Lemma skips_inside_any {A} (l : list A) ops : skips_inside false false l ops.
Proof. revert l. induction ops as [|op ops IH]; intros l; cbn; auto. split; auto. now destruct op. Qed.
