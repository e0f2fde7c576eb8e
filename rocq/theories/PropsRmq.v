(** * Properties C28-C31 and C56: range minimum queries. *)
From Verif Require Import Base Spec BaseFacts WordFacts BitVecModel RsVecModel PdepProofs EFProofs RmqModel RmqProofs FastRmqProofs.

(** ** C28 *)
Theorem C28_range_min data i j :
  lenN data < 2 ^ 32 -> i <= j -> j < lenN data ->
  exists b k, br_from_vec data = Ok b /\ br_range_min b i j = Ok k /\
    i <= k /\ k <= j /\ forall m x y, i <= m -> m <= j -> getN data k = Some x -> getN data m = Some y -> x <= y.
Proof.
  intros H Hij Hj. destruct (br_from_vec_ok data H) as (b & E & Hb & HR).
  destruct (br_range_min_ok data H b i j Hb HR Hij Hj) as (k & Ek & K1 & K2 & K3 & K4).
  exists b, k. repeat (split; [auto|]). intros m x y M1 M2 Hx Hy.
  apply getN_Some_inv in Hx as [_ Hx]. apply getN_Some_inv in Hy as [_ Hy]. rewrite <- (Hx 0), <- (Hy 0). auto.
Qed.
Theorem C28_construction data :
  (lenN data < 2 ^ 32 -> exists b, br_from_vec data = Ok b /\ br_data b = data) /\
  (2 ^ 32 <= lenN data -> br_from_vec data = Panic).
Proof.
  split; intros H.
  - destruct (br_from_vec_ok data H) as (b & E & Hb & _). eauto.
  - unfold br_from_vec. destruct (N.ltb_spec (lenN data) (2 ^ 32)); [lia|reflexivity].
Qed.
Definition ex_rmq : list N := [4; 10; 3; 11; 2; 12; 3].
Definition ex_br : brmq := match br_from_vec ex_rmq with Ok b => b | _ => mkbr [] [] end.
Example C28_ex :
  br_from_vec ex_rmq = Ok ex_br /\ br_range_min ex_br 0 3 = Ok 2 /\ br_range_min ex_br 1 6 = Ok 4 /\
  br_range_min ex_br 5 6 = Ok 6 /\ br_range_min ex_br 5 5 = Ok 5.
Proof. vm_compute. auto. Qed.

(** ** C29: for every length that the constructor accepts. *)
Theorem C29_range_min data r i j :
  fr_from_vec data = Ok r -> i <= j -> j < lenN data ->
  exists k, fr_range_min r i j = Ok k /\
    i <= k /\ k <= j /\ forall m x y, i <= m -> m <= j -> getN data k = Some x -> getN data m = Some y -> x <= y.
Proof.
  intros E Hij Hj.
  assert (G : fr_good data r).
  { destruct (N.le_gt_cases (2 ^ 40) (lenN data)); [rewrite fr_from_vec_panics in E; [discriminate|auto]|].
    destruct (N.le_gt_cases (2 ^ 32) ((lenN data + 127) / 128)); [rewrite fr_from_vec_panics in E; [discriminate|auto]|].
    destruct (fr_from_vec_ok data) as (r' & E' & G); auto. congruence. }
  destruct (fr_range_min_ok data r i j G Hij Hj) as (k & Ek & K1 & K2 & K3 & K4). exists k.
  repeat (split; [auto|]). intros m x y M1 M2 Hx Hy.
  apply getN_Some_inv in Hx as [_ Hx]. apply getN_Some_inv in Hy as [_ Hy]. rewrite <- (Hx 0), <- (Hy 0). auto.
Qed.
(** 300 elements, so that queries can span a full block. *)
Definition ex_frd : list N := map (fun i => (i * 37 + 11) mod 101 + (i mod 7)) (range 0 300).
Definition ex_fr : frmq := match fr_from_vec ex_frd with Ok r => r | _ => mkfr [] (mkbr [] []) [] [] end.
Example C29_ex :
  fr_from_vec ex_frd = Ok ex_fr /\ fr_range_min ex_fr 1 5 = Ok 3 /\ fr_range_min ex_fr 120 270 = Ok 128 /\
  fr_range_min ex_fr 100 140 = Ok 128 /\ fr_range_min ex_fr 299 299 = Ok 299.
Proof. vm_compute. repeat split. Qed.

(** ** C30: ranges given by bounds. *)
(** The indices selected by a range. *)
Definition in_range (s e : bound) (m : N) : Prop :=
  match s with Included i => i <= m | Excluded i => i < m | Unbounded => True end /\
  match e with Included j => m <= j | Excluded j => m < j | Unbounded => True end.
(** [k] is the position of a minimum among the selected elements. *)
Definition is_min_of (data : list N) (s e : bound) (k : N) : Prop :=
  in_range s e k /\ k < lenN data /\
  forall m x y, in_range s e m -> getN data k = Some x -> getN data m = Some y -> x <= y.

Lemma clamp_meets len s e m : len <= 2 ^ 64 -> m < len -> in_range s e m ->
  exists i j, clamp_bounds len s e = Ok (i, j) /\ i <= j /\ j < len /\ forall k, k < len -> in_range s e k <-> i <= k /\ k <= j.
Proof.
  intros Hl Hm Hr. unfold clamp_bounds, in_range in *.
  destruct s as [a|a|], e as [b|b|]; cbn [bind] in *; rewrite ?add64_ok, ?(sub_ok len 1), ?(sub_ok b 1) by (change U64 with (2 ^ 64); lia);
    cbn [bind]; do 2 eexists; (split; [reflexivity|]); repeat split; lia.
Qed.
Theorem C30_meets_partial data s e m :
  lenN data <= 2 ^ 64 -> m < lenN data -> in_range s e m ->
  (forall b, br_from_vec data = Ok b -> exists k, br_range_min_with_range b s e = Ok k /\ is_min_of data s e k) /\
  (forall r, fr_from_vec data = Ok r -> exists k, fr_range_min_with_range r s e = Ok k /\ is_min_of data s e k).
Proof.
  intros Hl Hm Hr. destruct (clamp_meets (lenN data) s e m Hl Hm Hr) as (i & j & E & Hij & Hj & Hk). split.
  - intros b Eb. destruct (N.le_gt_cases (2 ^ 32) (lenN data)) as [H|H].
    { destruct (C28_construction data) as [_ Hp]. rewrite Hp in Eb by auto. discriminate. }
    destruct (C28_range_min data i j H Hij Hj) as (b' & k & Eb' & Ek & K1 & K2 & K3).
    destruct (C28_construction data) as [Hc _]. destruct (Hc H) as (b2 & Eb2 & Hd).
    assert (b' = b) by congruence. assert (b2 = b) by congruence. subst b' b2.
    unfold br_range_min_with_range. rewrite Hd, E. cbn [bind]. exists k. split; auto.
    split; [apply Hk; lia|]. split; [lia|]. intros m' x y Hm' Hx Hy. pose proof (getN_Some_inv _ _ _ Hy) as [Hm2 _]; apply (K3 m'); auto; apply Hk; auto.
  - intros r Er. destruct (C29_range_min data r i j Er Hij Hj) as (k & Ek & K1 & K2 & K3).
    unfold fr_range_min_with_range.
    assert (Hd : fr_data r = data).
    { unfold fr_from_vec in Er. destruct (_ <? _); [|discriminate]. cbn [assert bind] in Er.
      destruct (forM _ _ _) as [[[? ?] ?]| |]; try discriminate. cbn [bind] in Er.
      destruct (br_from_vec _); try discriminate. cbn [bind] in Er. now injection Er as <-. }
    rewrite Hd, E. cbn [bind]. exists k. split; auto.
    split; [apply Hk; lia|]. split; [lia|]. intros m' x y Hm' Hx Hy. pose proof (getN_Some_inv _ _ _ Hy) as [Hm2 _]; apply (K3 m'); auto; apply Hk; auto.
Qed.
(** Ranges without elements: [0..0], [2..2], [3..1] panic; [2..2] on the fast structure returns 2. *)
Definition ex_fr3 : frmq := match fr_from_vec [1; 2; 3] with Ok r => r | _ => mkfr [] (mkbr [] []) [] [] end.
Definition ex_br3 : brmq := match br_from_vec [1; 2; 3] with Ok r => r | _ => mkbr [] [] end.
Theorem C30_no_panic_refuted :
  exists data b r, 0 < lenN data /\ br_from_vec data = Ok b /\ fr_from_vec data = Ok r /\
    br_range_min_with_range b (Included 0) (Excluded 0) = Panic /\
    fr_range_min_with_range r (Included 0) (Excluded 0) = Panic /\
    br_range_min_with_range b (Included 2) (Excluded 2) = Panic /\
    fr_range_min_with_range r (Included 2) (Excluded 2) = Ok 2 /\
    br_range_min_with_range b (Excluded (2 ^ 64 - 1)) Unbounded = Panic /\
    fr_range_min_with_range r (Excluded (2 ^ 64 - 1)) Unbounded = Panic.
Proof. exists [1; 2; 3], ex_br3, ex_fr3. vm_compute. repeat split. Qed.
Example C30_ex :
  in_range (Included 1) (Excluded 9) 2 /\
  br_range_min_with_range ex_br3 (Included 1) (Excluded 9) = Ok 1 /\ fr_range_min_with_range ex_fr3 (Excluded 1) Unbounded = Ok 2.
Proof. split; [unfold in_range; lia|]. vm_compute. auto. Qed.

(** ** C56: the exact behaviour of [BinaryRmq::range_min_with_range]. *)
Definition first_of (s : bound) : N := match s with Included i => i | Excluded i => i + 1 | Unbounded => 0 end.
Definition last_of (len : N) (e : bound) : N := match e with Included j => j | Excluded j => j - 1 | Unbounded => len - 1 end.
Definition word_bound (s : bound) : Prop := match s with Included i | Excluded i => i < 2 ^ 64 | Unbounded => True end.
Theorem C56_with_range_exact data b s e :
  0 < lenN data -> br_from_vec data = Ok b -> word_bound s -> word_bound e ->
  let lo := N.min (first_of s) (lenN data - 1) in
  let hi := N.min (last_of (lenN data) e) (lenN data - 1) in
  if match s with Excluded i => i =? 2 ^ 64 - 1 | _ => false end || match e with Excluded j => j =? 0 | _ => false end || (hi <? lo)
  then br_range_min_with_range b s e = Panic
  else exists k, br_range_min_with_range b s e = Ok k /\
         lo <= k /\ k <= hi /\ forall m x y, lo <= m -> m <= hi -> getN data k = Some x -> getN data m = Some y -> x <= y.
Proof.
  intros Hne Eb Hs He lo hi. destruct (N.le_gt_cases (2 ^ 32) (lenN data)) as [H|H].
  { destruct (C28_construction data) as [_ Hp]. rewrite Hp in Eb by auto. discriminate. }
  destruct (C28_construction data) as [Hc _]. destruct (Hc H) as (b2 & Eb2 & Hd). assert (b2 = b) by congruence. subst b2.
  unfold br_range_min_with_range. rewrite Hd.
  assert (Ec : clamp_bounds (lenN data) s e =
    if match s with Excluded i => i =? 2 ^ 64 - 1 | _ => false end || match e with Excluded j => j =? 0 | _ => false end
    then Panic else Ok (lo, hi)).
  { unfold clamp_bounds. rewrite (sub_ok (lenN data) 1) by lia.
    assert (E1 : (match s with Included i => Ok i | Excluded i => add64 i 1 | Unbounded => Ok 0 end) =
                 if match s with Excluded i => i =? 2 ^ 64 - 1 | _ => false end then Panic else Ok (first_of s)).
    { destruct s as [i|i|]; auto. unfold add64. change U64 with (2 ^ 64). cbn in Hs.
      destruct (N.eqb_spec i (2 ^ 64 - 1)), (N.ltb_spec (i + 1) (2 ^ 64)); auto; lia. }
    rewrite E1. destruct (match s with Excluded i => i =? 2 ^ 64 - 1 | _ => false end); [reflexivity|]. cbn [bind orb].
    assert (E2 : (match e with Included i => Ok i | Excluded i => sub i 1 | Unbounded => Ok (lenN data - 1) end) =
                 if match e with Excluded j => j =? 0 | _ => false end then Panic else Ok (last_of (lenN data) e)).
    { destruct e as [j|j|]; auto. unfold sub. cbn [last_of]. destruct (N.eqb_spec j 0), (N.leb_spec 1 j); auto; lia. }
    rewrite E2. destruct (match e with Excluded j => j =? 0 | _ => false end); reflexivity. }
  rewrite Ec. destruct (match s with Excluded i => i =? 2 ^ 64 - 1 | _ => false end || match e with Excluded j => j =? 0 | _ => false end)%bool;
    [reflexivity|]. cbn [bind orb]. destruct (N.ltb_spec hi lo) as [Hlt|Hge].
  - unfold br_range_min. unfold sub at 1. destruct (N.leb_spec lo hi); [lia|reflexivity].
  - destruct (C28_range_min data lo hi H Hge) as (b' & k & Eb' & Ek & K); [lia|]. assert (b' = b) by congruence. subst b'. eauto.
Qed.
Example C56_ex :
  br_range_min_with_range ex_br3 (Included 7) (Included 5) = Ok 2 /\ br_range_min_with_range ex_br3 (Included 1) (Included 0) = Panic /\
  br_range_min_with_range ex_br3 Unbounded (Excluded 100) = Ok 0.
Proof. vm_compute. auto. Qed.

(** ** C31: the constructor rejects lengths from 2^39 - 127 on. *)
Theorem C57_length_limit data :
  (lenN data <= 2 ^ 39 - 128 -> exists r, fr_from_vec data = Ok r) /\
  (2 ^ 39 - 128 < lenN data -> fr_from_vec data = Panic).
Proof.
  split; intros H.
  - destruct (fr_from_vec_ok data) as (r & E & _); [lia| |eauto]. apply N.div_lt_upper_bound; lia.
  - apply fr_from_vec_panics. right. apply N.div_le_lower_bound; lia.
Qed.
Theorem C31_accepts_partial data : lenN data <= 2 ^ 39 - 128 -> exists r, fr_from_vec data = Ok r.
Proof. apply C57_length_limit. Qed.
Theorem C31_accepts_refuted : exists data, lenN data < 2 ^ 40 /\ fr_from_vec data = Panic.
Proof.
  assert (H : forall n, 2 ^ 39 <= n -> n < 2 ^ 40 -> exists data, lenN data < 2 ^ 40 /\ fr_from_vec data = Panic).
  { intros n H1 H2. exists (replicate n 0). rewrite lenN_replicate. split; auto.
    apply C57_length_limit. rewrite lenN_replicate. lia. }
  apply (H (2 ^ 39)); reflexivity || (intros; discriminate).
Qed.
Example C31_ex : exists r, fr_from_vec [3; 1; 2] = Ok r.
Proof. apply C31_accepts_partial. vm_compute. discriminate. Qed.
Example C57_ex : exists r, fr_from_vec (replicate 100 7) = Ok r.
Proof. apply C57_length_limit. vm_compute. discriminate. Qed.
