(** * Property C117: sparse vectors with positions beyond their length or with duplicates. *)
From Verif Require Import Base Spec BaseFacts WordFacts BitVecModel BitVecProofs RsVecModel IterSpec IterFacts IterLazy
  RsIterModel GenIterModel EFModel EFProofs EFQuery EFIterProofs PropsEF SparseModel SparseReleaseModel PropsSparse.

Lemma increasing_NoDup l : increasing l -> NoDup l.
Proof.
  induction l as [|a l IH]; intros H; constructor; apply increasing_cons in H as [H1 H2]; auto.
  intros Hin. specialize (H2 a Hin). lia.
Qed.
Lemma below_le l i : increasing l -> lenN (filter (fun x => x <? i) l) <= i.
Proof.
  intros H. apply increasing_NoDup in H.
  assert (L : (length (filter (fun x => (x <? i)%N) l) <= length (range 0 i))%nat).
  { apply NoDup_incl_length; [now apply NoDup_filter|]. intros x Hx. apply filter_In in Hx as [_ Hx].
    apply N.ltb_lt in Hx. apply In_range. lia. }
  pose proof (lenN_range 0 i). unfold lenN in *. lia.
Qed.
Lemma windows_increasing l : windows_sorted l = true -> windows_distinct l = true -> increasing l.
Proof.
  induction l as [|a [|b l] IH]; intros H1 H2; [apply increasing_nil| |].
  - apply increasing_cons. split; [apply increasing_nil|intros y []].
  - change (((a <=? b) && windows_sorted (b :: l)) = true) in H1.
    change ((negb (a =? b) && windows_distinct (b :: l)) = true) in H2.
    apply andb_true_iff in H1 as [A1 H1]. apply andb_true_iff in H2 as [A2 H2].
    apply N.leb_le in A1. destruct (N.eqb_spec a b); [discriminate|]. specialize (IH H1 H2).
    apply increasing_cons. split; auto. intros y [<-|Hy]; [lia|].
    apply increasing_cons in IH as [_ IH]. specialize (IH y Hy). lia.
Qed.

(** The constructor checks the order of the positions and not that they lie below the length. *)
Theorem C117_construction p len w : Forall (fun x => x < 2 ^ 64) p -> w < 64 ->
  (increasing p -> exists s, sp_new w p len = Ok s /\ sp_len s = len) /\
  (~ increasing p -> sp_new w p len = Panic).
Proof.
  intros Hd Hw. split; intros Hp.
  - destruct (increasing_windows p Hp) as [H1 H2]. unfold sp_new. rewrite H1, H2. cbn [assert bind].
    destruct (C21_construction p w Hd Hw) as [H _].
    destruct (H (increasing_nondecreasing p Hp)) as (e & E & _). rewrite E. cbn [bind]. eauto.
  - unfold sp_new. destruct (windows_sorted p) eqn:E1; auto. destruct (windows_distinct p) eqn:E2; auto.
    destruct Hp. now apply windows_increasing.
Qed.

Section Any.
Variables (p : list N) (len w : N) (s : sparse).
Hypothesis Hd : Forall (fun x => x < 2 ^ 64) p.
Hypothesis H64 : len < 2 ^ 64.
Hypothesis Hw : w < 64.

(** What does not depend on duplicates. *)
Section Common.
Hypothesis Hs : nondecreasing p.
Hypothesis Ee : ef_from_slice w p = Ok (sp_vec s).
Hypothesis El : sp_len s = len.
Lemma any_get i : i < 2 ^ 64 ->
  sp_get s i = Ok (if i <? len then Some (bitN (existsb (N.eqb i) p)) else None).
Proof using Hd H64 Hw Hs Ee El.
  intros Hi. unfold sp_get, sp_is_set. rewrite El, N.leb_antisym. destruct (N.ltb_spec i len) as [H|H]; cbn [negb]; auto.
  destruct (C22_predecessor p w (sp_vec s) i Hs Hd Hw Ee Hi) as (o & Eo & Ho).
  rewrite Eo. cbn [bind option_map]. do 3 f_equal. apply Bool.eq_iff_eq_true. rewrite existsb_In.
  destruct o as [x|]; cbn [is_predecessor] in Ho.
  - destruct Ho as (Hin & Hle & Hmax). rewrite N.eqb_eq. split; [now intros ->|].
    intros Hii. specialize (Hmax i Hii). lia.
  - split; [discriminate|]. intros Hii. specialize (Ho i Hii). lia.
Qed.
Lemma any_rank q : q < 2 ^ 64 -> ef_rank (sp_vec s) q = Ok (lenN (filter (fun x => x <? q) p)).
Proof using Hd H64 Hw Hs Ee El. intros. now apply (C24_rank p w). Qed.
Lemma any_select k : sp_select1 s k = Ok (match getN p k with Some x => x | None => len end).
Proof using Hd H64 Hw Hs Ee El. unfold sp_select1. destruct (C21_get p w (sp_vec s) k Hs Hd Hw Ee) as [-> _]. cbn [bind]. now rewrite El. Qed.
End Common.

(** Positions beyond the length are counted by [rank1], found by [select1] and yielded by [iter1], and
    no other query sees them. *)
Theorem C117_exact : increasing p -> sp_new w p len = Ok s ->
  (forall i, i < 2 ^ 64 ->
     sp_get s i = Ok (if i <? len then Some (bitN (existsb (N.eqb i) p)) else None) /\
     sp_rank1 s i = Ok (lenN (filter (fun x => x <? i) p)) /\
     sp_rank0 s i = Ok (N.min i len - lenN (filter (fun x => x <? N.min i len) p))) /\
  (forall k, sp_select1 s k = Ok (match getN p k with Some x => x | None => len end)) /\
  (forall ops, lenN p < 2 ^ 64 -> skips_inside true true p ops ->
     exists it, sp_iter1 s = Ok it /\ iter_run (ei_step (sp_vec s)) it ops = Ok (iter_spec_run p ops)).
Proof using Hd H64 Hw.
  intros Hp E. destruct (increasing_windows p Hp) as [H1 H2]. unfold sp_new in E. rewrite H1, H2 in E. cbn [assert bind] in E.
  destruct (ef_from_slice w p) as [v| |] eqn:Ee; try discriminate. cbn [bind] in E. injection E as Es.
  assert (Ev : ef_from_slice w p = Ok (sp_vec s)) by (now rewrite <- Es). assert (El : sp_len s = len) by (now rewrite <- Es). clear Es.
  pose proof (increasing_nondecreasing p Hp) as Hs. split; [|split].
  - intros i Hi. split; [apply any_get; auto|]. split; [unfold sp_rank1; apply any_rank; auto|].
    unfold sp_rank0. rewrite El. destruct (N.leb_spec len i).
    + rewrite any_rank by auto. cbn [bind]. rewrite N.min_r by lia. rewrite sub_ok; auto. now apply below_le.
    + rewrite any_rank by auto. cbn [bind]. rewrite N.min_l by lia. rewrite sub_ok; auto. now apply below_le.
  - intros k. apply any_select; auto.
  - intros ops Hn Ho. now apply (C26_iter p w (sp_vec s) Hs Hd Hw Ev Hn).
Qed.

(** A release build accepts duplicates. They count repeatedly in [rank1] and [select1], and [rank0] wraps below zero. *)
Theorem C117_release : nondecreasing p -> sp_new_rel w p len = Ok s ->
  (forall i, i < 2 ^ 64 ->
     sp_get s i = Ok (if i <? len then Some (bitN (existsb (N.eqb i) p)) else None) /\
     sp_rank1 s i = Ok (lenN (filter (fun x => x <? i) p)) /\
     sp_rank0_rel s i = Ok (wrapping_sub (N.min i len) (lenN (filter (fun x => x <? N.min i len) p)))) /\
  (forall k, sp_select1 s k = Ok (match getN p k with Some x => x | None => len end)).
Proof using Hd H64 Hw.
  intros Hs E. unfold sp_new_rel in E.
  destruct (ef_from_slice w p) as [v| |] eqn:Ee; try discriminate. cbn [bind] in E. injection E as Es.
  assert (Ev : ef_from_slice w p = Ok (sp_vec s)) by (now rewrite <- Es). assert (El : sp_len s = len) by (now rewrite <- Es). clear Es. split.
  - intros i Hi. split; [apply any_get; auto|]. split; [unfold sp_rank1; apply any_rank; auto|].
    unfold sp_rank0_rel. rewrite El. destruct (N.leb_spec len i).
    + rewrite any_rank by auto. cbn [bind]. now rewrite N.min_r by lia.
    + rewrite any_rank by auto. cbn [bind]. now rewrite N.min_l by lia.
  - intros k. apply any_select; auto.
Qed.
End Any.

(** Documented: beyond the end [rank1] is the number of one-bits in the vector, and so is the rank at the end. *)
Theorem C117_refuted : ~ forall p len w s i, increasing p -> Forall (fun x => x < 2 ^ 64) p -> len < 2 ^ 64 -> w < 64 ->
  sp_new w p len = Ok s -> len <= i -> i < 2 ^ 64 ->
  sp_rank1 s i = sp_rank1 s len /\ exists a b, sp_rank1 s i = Ok a /\ sp_rank0 s i = Ok b /\ a + b = len.
Proof.
  intros H. set (s := match sp_new 3 [1; 9] 4 with Ok s => s | _ => mksp ef_dummy 0 end).
  assert (Hi : increasing [1; 9]) by (apply windows_increasing; reflexivity).
  destruct (H [1; 9] 4 3 s 12 Hi) as [E _]; try reflexivity.
  - repeat constructor.
  - discriminate.
  - vm_compute in E. discriminate.
Qed.

(** One position inside, one outside. *)
Example C117_ex : increasing [1; 9] /\
  match sp_new 3 [1; 9] 4 with
  | Ok s => sp_get s 1 = Ok (Some 1) /\ sp_get s 3 = Ok (Some 0) /\ sp_get s 9 = Ok None /\
      sp_rank1 s 4 = Ok 1 /\ sp_rank1 s 12 = Ok 2 /\ sp_rank0 s 12 = Ok 3 /\ sp_select1 s 1 = Ok 9 /\ sp_select1 s 2 = Ok 4
  | _ => False
  end.
Proof. split; [apply windows_increasing; reflexivity|]. vm_compute. auto 20. Qed.
(** Duplicates: rejected in a debug build; in a release build the number of zeros before position 2 is 2^64 - 1. *)
Example C117_ex_release : sp_new 0 [1; 1; 1; 3] 5 = Panic /\ nondecreasing [1; 1; 1; 3] /\
  match sp_new_rel 0 [1; 1; 1; 3] 5 with
  | Ok s => sp_get s 1 = Ok (Some 1) /\ sp_rank1 s 2 = Ok 3 /\ sp_rank0_rel s 2 = Ok (2 ^ 64 - 1) /\ sp_rank0_rel s 9 = Ok 1 /\
      sp_select1 s 2 = Ok 1 /\ sp_select1 s 3 = Ok 3
  | _ => False
  end.
Proof. split; [reflexivity|]. split; [apply windows_nondecreasing; reflexivity|]. vm_compute. auto 20. Qed.
