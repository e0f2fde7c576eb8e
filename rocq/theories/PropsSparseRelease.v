(** * Property C140: [SparseRSVec] in a release build, with every query of its Elias-Fano vector in a
    release build as well. *)
From Verif Require Import Base Spec BaseFacts WordFacts BitVecModel BitVecProofs RsVecModel IterSpec
  GenIterModel EFModel EFProofs EFQuery PropsEF SparseModel PropsSparse PropsSparseAny EFReleaseModel PropsEFRelease PropsEFUnsorted
  SparseFullReleaseModel.

Section Sorted.
Variables (p : list N) (len w : N).
Hypothesis Hs : nondecreasing p.
Hypothesis Hd : Forall (fun x => x < 2 ^ 64) p.
Hypothesis H64 : len < 2 ^ 64.
Hypothesis Hw : w < 64.
Local Notation n := (lenN p).
Local Notation zero := (nthN 0 p 0).
Local Notation top := ((nthN 0 p (n - 1) - zero) / 2 ^ w).
Local Notation ulen := (2 + n + top).
Hypothesis Hm : ulen + 64 <= 2 ^ 64.
Hypothesis Hl : n * w <= 2 ^ 64.

Lemma release_parts s : sp_new_release w p len = Ok s -> ef_from_slice w p = Ok (sp_vec s) /\ sp_len s = len.
Proof using All.
  unfold sp_new_release. rewrite (C131_sorted p w Hs Hd Hw Hm). destruct (ef_from_slice w p) as [v| |] eqn:Ee; try discriminate.
  cbn [bind]. intros [= <-]. auto.
Qed.

(** ** C140: checked queries, duplicates and positions beyond the length included. *)
Theorem C140_checked : exists s, sp_new_release w p len = Ok s /\
  (forall i, i < 2 ^ 64 ->
     sp_is_set_release s i = Ok (if i <? len then Some (existsb (N.eqb i) p) else None) /\
     sp_get_release s i = Ok (if i <? len then Some (bitN (existsb (N.eqb i) p)) else None) /\
     sp_rank1_release s i = Ok (lenN (filter (fun x => x <? i) p)) /\
     sp_rank0_release s i = Ok (wrapping_sub (N.min i len) (lenN (filter (fun x => x <? N.min i len) p)))) /\
  (forall k, sp_select1_release s k = Ok (match getN p k with Some x => x | None => len end)).
Proof using All.
  destruct (proj1 (C21_construction p w Hd Hw) Hs) as (e & Ee & _). exists (mksp e len).
  split; [unfold sp_new_release; now rewrite (C131_sorted p w Hs Hd Hw Hm), Ee|].
  assert (Hc : forall q i, q < 2 ^ 64 -> _) by exact (fun q i Hq => C129_checked p w e q i Hs Hd Hw Ee Hm Hl Hq). split.
  - intros i Hi. assert (Hset : sp_is_set_release (mksp e len) i = Ok (if i <? len then Some (existsb (N.eqb i) p) else None)).
    { unfold sp_is_set_release. cbn [sp_len sp_vec]. rewrite N.leb_antisym. destruct (N.ltb_spec i len) as [H|H]; cbn [negb]; auto.
      destruct (Hc i 0 Hi) as ((o & Eo & Ho) & _). rewrite Eo. cbn [bind]. do 2 f_equal. apply Bool.eq_iff_eq_true. rewrite existsb_In.
      destruct o as [x|]; cbn [is_predecessor] in Ho.
      - destruct Ho as (Hin & Hle & Hmax). rewrite N.eqb_eq. split; [now intros ->|]. intros Hii. specialize (Hmax i Hii). lia.
      - split; [discriminate|]. intros Hii. specialize (Ho i Hii). lia. }
    split; [auto|]. split; [unfold sp_get_release; rewrite Hset; cbn [bind]; now destruct (i <? len)|].
    split; [now apply (Hc i 0 Hi)|]. unfold sp_rank0_release. cbn [sp_len sp_vec]. destruct (N.leb_spec len i).
    + destruct (Hc len 0 H64) as (_ & _ & -> & _). cbn [bind]. now rewrite N.min_r by lia.
    + destruct (Hc i 0 Hi) as (_ & _ & -> & _). cbn [bind]. now rewrite N.min_l by lia.
  - intros k. unfold sp_select1_release. cbn [sp_len sp_vec]. destruct (Hc 0 k ltac:(lia)) as (_ & _ & _ & -> & _). reflexivity.
Qed.

(** ** C140: the unchecked read for every position. Before the first position it compares low bits found
    at a wrapped index with those of the query, and may find them equal. *)
Theorem C140_unchecked s i : sp_new_release w p len = Ok s -> i < 2 ^ 64 ->
  sp_is_set_unchecked_release s i =
    (if existsb (fun x => x <=? i) p then Ok (existsb (N.eqb i) p)
     else
       let b := (i + 2 ^ 64 - zero) / 2 ^ w in
       let at_ := ((ulen - 1 + 2 ^ 64 - b) * w) mod 2 ^ 64 in
       if n =? 0 then Panic
       else if b =? top then Ok false
       else if b =? top + 1 then if ulen mod 64 =? 0 then Panic else Ok false
       else if (ulen + 1) mod 64 <=? 1 then Panic
       else if b <? ulen then Ok false
       else if at_ + w <=? 64 * ((n * w + 63) / 64)
       then Ok ((low_stream zero w p / 2 ^ at_) mod 2 ^ w =? (i + 2 ^ 64 - zero) mod 2 ^ w)
       else Panic).
Proof using All.
  intros E Hi. destruct (release_parts s E) as [Ee El]. unfold sp_is_set_unchecked_release.
  destruct (C129_predecessor_unchecked p w (sp_vec s) i Hs Hd Hw Ee Hm Hl Hi) as [Hsome Hnone].
  destruct (existsb (fun x => x <=? i) p) eqn:Ex.
  - destruct (C22_predecessor p w (sp_vec s) i Hs Hd Hw Ee Hi) as ([x|] & _ & Ho).
    + rewrite (Hsome x Ho). cbn [bind]. f_equal. apply Bool.eq_iff_eq_true. rewrite existsb_In, N.eqb_eq. destruct Ho as (Hin & Hle & Hmax).
      split; [now intros ->|]. intros Hii. specialize (Hmax i Hii). lia.
    + apply existsb_exists in Ex as (x & Hx & Hle). apply N.leb_le in Hle. cbn in Ho. specialize (Ho x Hx). lia.
  - assert (Hgt : forall x, In x p -> i < x).
    { intros x Hx. destruct (N.le_gt_cases x i) as [H|H]; [|auto]. exfalso. assert (existsb (fun x => x <=? i) p = true); [|congruence].
      apply existsb_exists. exists x. split; [auto|now apply N.leb_le]. }
    rewrite Hnone by exact Hgt. clear Hsome Hnone Ex. cbv zeta. destruct (N.eqb_spec n 0) as [E0|E0]; [reflexivity|].
    assert (Hin : forall k, k < n -> In (nthN 0 p k) p) by (intros k Hk; apply (getN_In _ k); now apply getN_ok).
    assert (Hlast : forall k, k < n -> (nthN 0 p k =? i) = false) by (intros k Hk; apply N.eqb_neq; specialize (Hgt _ (Hin k Hk)); clear - Hgt; lia).
    set (b := (i + 2 ^ 64 - zero) / 2 ^ w).
    destruct (N.eqb_spec b top) as [E1|E1]; [cbn [bind]; now rewrite Hlast by lia|].
    destruct (N.eqb_spec b (top + 1)) as [E2|E2]; [destruct (ulen mod 64 =? 0); [reflexivity|]; cbn [bind]; now rewrite Hlast by lia|].
    destruct ((ulen + 1) mod 64 <=? 1); [reflexivity|].
    assert (Hz : i < zero) by (apply Hgt, Hin; lia).
    assert (Hz64 : zero < 2 ^ 64) by (apply (proj1 (Forall_forall _ _) Hd); apply Hin; lia).
    assert (Hmono : zero <= nthN 0 p (n - 1)) by (apply nondecreasing_nth; auto; lia).
    assert (Hl64 : nthN 0 p (n - 1) < 2 ^ 64) by (apply (proj1 (Forall_forall _ _) Hd); apply Hin; lia).
    assert (P : 2 ^ w <> 0) by now apply N.pow_nonzero.
    assert (Hb1 : top <= b) by (apply N.div_le_mono; [auto|lia]).
    pose proof (N.div_mod (i + 2 ^ 64 - zero) (2 ^ w) P) as Hdm. fold b in Hdm. pose proof (N.mod_lt (i + 2 ^ 64 - zero) (2 ^ w) P) as Hr.
    set (r := (i + 2 ^ 64 - zero) mod 2 ^ w) in *.
    assert (Hpow : 2 ^ 64 = 2 ^ (64 - w) * 2 ^ w) by (rewrite <- N.pow_add_r; f_equal; lia).
    assert (Hb2 : b < 2 ^ (64 - w)) by (apply N.div_lt_upper_bound; [auto|]; rewrite N.mul_comm, <- Hpow; lia).
    assert (Hb3 : 2 ^ (64 - w) <= 2 ^ 64) by (apply N.pow_le_mono_r; lia).
    clearbody b r. set (t := top) in *. assert (Et : top = t) by reflexivity. clearbody t.
    destruct (N.ltb_spec b (2 + n + t)) as [L|L].
    + assert (Ej : (2 + n + t + 2 ^ 64 - 1 - b) mod 2 ^ 64 = 1 + n + t - b).
      { replace (2 + n + t + 2 ^ 64 - 1 - b) with (1 + n + t - b + 1 * 2 ^ 64) by (clear - L; lia). rewrite N.mod_add by (clear; lia). apply N.mod_small. clear - Hm; lia. }
      rewrite Ej. unfold get_release. rewrite (getN_ok 0) by (clear - E1 E2 Hb1 E0; lia). cbn [bind]. rewrite Hlast; [reflexivity|]. clear - E1 E2 Hb1 E0; lia.
    + set (j := 2 + n + t - 1 + 2 ^ 64 - b) in *.
      assert (Ej : (2 + n + t + 2 ^ 64 - 1 - b) mod 2 ^ 64 = j).
      { subst j. replace (2 + n + t + 2 ^ 64 - 1 - b) with (2 + n + t - 1 + 2 ^ 64 - b) by (clear; lia). apply N.mod_small. clear - L Hb2 Hb3; lia. }
      rewrite Ej. assert (Hj : n <= j) by (subst j; clear - Hb2 Hb3; lia).
      unfold get_release. rewrite getN_none by auto. cbv zeta. rewrite Et.
      destruct (_ <=? _); cbn [bind]; [|reflexivity]. f_equal.
      set (g := (low_stream zero w p / 2 ^ ((j * w) mod 2 ^ 64)) mod 2 ^ w).
      assert (Hg : g < 2 ^ w) by now apply N.mod_lt. clearbody g.
      replace (1 + n + t + 2 ^ 64 - j) with b by (subst j; clear - L Hb2 Hb3; lia).
      assert (Hx : b * 2 ^ w + g < 2 ^ 64).
      { assert (Hb4 : (b + 1) * 2 ^ w <= 2 ^ (64 - w) * 2 ^ w) by (apply N.mul_le_mono_r; clear - Hb2; lia). rewrite <- Hpow in Hb4. clear - Hb4 Hg; lia. }
      replace (2 ^ w * b) with (b * 2 ^ w) in Hdm by apply N.mul_comm. set (x := b * 2 ^ w) in *. clearbody x.
      apply Bool.eq_iff_eq_true. rewrite !N.eqb_eq. clear - Hx Hdm Hz Hz64 Hi Hr Hg. split.
      * intros H. assert (Hc : x + g + zero < 2 ^ 64 \/ 2 ^ 64 <= x + g + zero) by lia. destruct Hc as [Hc|Hc].
        -- rewrite N.mod_small in H by auto. lia.
        -- replace (x + g + zero) with (x + g + zero - 2 ^ 64 + 1 * 2 ^ 64) in H by lia. rewrite N.mod_add, N.mod_small in H by lia. lia.
      * intros ->. replace (x + r + zero) with (i + 1 * 2 ^ 64) by lia. rewrite N.mod_add by lia. now apply N.mod_small.
Qed.

(** With low parts of width 0, positions before the first one are reported as set. *)
Theorem C140_width_0 s i : w = 0 -> sp_new_release w p len = Ok s -> i < zero -> 2 + nthN 0 p (n - 1) + n < 2 ^ 64 + i ->
  sp_is_set_unchecked_release s i = if (2 + n + (nthN 0 p (n - 1) - zero) + 1) mod 64 <=? 1 then Panic else Ok true.
Proof using All.
  intros E0 E Hi Hroom. assert (Hn : n <> 0). { intros H0. rewrite nthN_overflow in Hi by lia. lia. }
  assert (Hin : forall k, k < n -> In (nthN 0 p k) p) by (intros k Hk; apply (getN_In _ k); now apply getN_ok).
  assert (Hz64 : zero < 2 ^ 64) by (apply (proj1 (Forall_forall _ _) Hd); apply Hin; lia).
  assert (Hmono : zero <= nthN 0 p (n - 1)) by (apply nondecreasing_nth; auto; lia).
  rewrite (C140_unchecked s i E) by lia. destruct (existsb (fun x => x <=? i) p) eqn:Ex.
  { exfalso. apply existsb_exists in Ex as (x & Hx & Hle). apply N.leb_le in Hle. apply In_getN in Hx as (k & Hk & Hx). apply getN_Some_inv in Hx as [_ Hx].
    pose proof (nondecreasing_nth p Hs 0 k ltac:(lia) Hk). rewrite (Hx 0) in H. lia. }
  cbv zeta. assert (Ew : 2 ^ w = 1) by now rewrite E0. rewrite Ew, !N.div_1_r, !N.mod_1_r.
  destruct (N.eqb_spec n 0) as [?|_]; [lia|]. destruct (N.eqb_spec (i + 2 ^ 64 - zero) (nthN 0 p (n - 1) - zero)) as [?|_]; [lia|].
  destruct (N.eqb_spec (i + 2 ^ 64 - zero) (nthN 0 p (n - 1) - zero + 1)) as [?|_]; [lia|].
  destruct (_ <=? 1); [reflexivity|].
  destruct (N.ltb_spec (i + 2 ^ 64 - zero) (2 + n + (nthN 0 p (n - 1) - zero))); [lia|].
  rewrite E0, !N.mul_0_r. reflexivity.
Qed.
End Sorted.

(** ** C140: [select1] of positions that are not ascending. It is right for all of them exactly if the
    high parts ascend. *)
Theorem C140_unsorted p len w s :
  Forall (fun x => x < 2 ^ 64) p -> p <> [] -> w < 64 -> sp_new_release w p len = Ok s ->
  let n := lenN p in
  let high k := (nthN 0 p k + 2 ^ 64 - nthN 0 p 0) mod 2 ^ 64 / 2 ^ w in
  2 + n + high (n - 1) + 64 <= 2 ^ 64 -> n * w <= 2 ^ 64 -> w < 63 \/ n <= 2 ->
  (forall i, sp_select1_release s i = Ok (match getN p i with Some x => x | None => len end)) <->
  (forall i j, i <= j -> j < n -> high i <= high j).
Proof.
  intros Hd Hne Hw E n high Hm Hl H63. unfold sp_new_release in E. destruct (ef_from_slice_rel w p) as [e| |] eqn:Ee; try discriminate.
  cbn [bind] in E. injection E as <-. pose proof (C131_get p w e Hd Hne Hw Ee Hm Hl H63) as H. fold n high in H. rewrite <- H. clear H.
  assert (En : ef_n e = lenN p).
  { assert (Hn : 0 < lenN p) by (destruct p; [easy|rewrite lenN_cons; lia]).
    destruct (from_any p w Hd Hn Hw Hm) as [[_ E']|[_ (up & l & u & _ & _ & E')]]; [congruence|]. rewrite Ee in E'. now injection E' as ->. }
  unfold sp_select1_release. cbn [sp_vec sp_len]. split; intros H i; specialize (H i).
  - unfold ef_get_rel in *. rewrite En in *. destruct (N.leb_spec (lenN p) i) as [L|L]; [now rewrite getN_none|].
    rewrite (getN_ok 0) in * by auto. destruct (UncheckedReleaseModel.ef_get_unchecked_rel e i) as [v| |]; cbn [bind] in *; try discriminate. congruence.
  - now rewrite H.
Qed.

(** Documented: [get_unchecked] is wrong out of bounds only. The positions 5 to 9 get low parts of width
    0, and position 0 is reported as set. *)
Theorem C140_refuted : ~ forall p len s i, increasing p -> Forall (fun x => x < len) p -> len < 2 ^ 64 ->
  sp_new_release (ef_width p) p len = Ok s -> i < len ->
  exists b, sp_get_release s i = Ok (Some b) /\ sp_get_unchecked_release s i = Ok b.
Proof.
  intros H. set (s := match sp_new_release 0 [5; 6; 7; 8; 9] 12 with Ok s => s | _ => mksp ef_dummy 0 end).
  destruct (H [5; 6; 7; 8; 9] 12 s 0) as (b & E1 & E2); try reflexivity.
  - apply windows_increasing; reflexivity.
  - repeat constructor.
  - assert (F1 : sp_get_release s 0 = Ok (Some 0)) by (vm_compute; reflexivity).
    assert (F2 : sp_get_unchecked_release s 0 = Ok 1) by (vm_compute; reflexivity). congruence.
Qed.
(** A duplicate, and [is_set_unchecked] before, at and behind the first position. *)
Example C140_ex : nondecreasing [4; 4; 9] /\
  match sp_new_release 1 [4; 4; 9] 11 with
  | Ok s => sp_get_release s 4 = Ok (Some 1) /\ sp_get_release s 5 = Ok (Some 0) /\ sp_rank1_release s 6 = Ok 2 /\
      sp_rank0_release s 5 = Ok 3 /\ sp_select1_release s 2 = Ok 9 /\ sp_select1_release s 3 = Ok 11 /\
      sp_is_set_unchecked_release s 4 = Ok true /\ sp_is_set_unchecked_release s 5 = Ok false
  | _ => False end.
Proof. split; [apply windows_nondecreasing; reflexivity|]. vm_compute. auto 20. Qed.
(** Unsorted positions whose high parts ascend, and others. *)
Example C140_unsorted_ex :
  match sp_new_release 2 [0; 3; 2; 6] 8, sp_new_release 1 [0; 6; 2; 7] 8 with
  | Ok s, Ok t => sp_select1_release s 1 = Ok 3 /\ sp_select1_release s 2 = Ok 2 /\ sp_select1_release t 1 = Ok 4
  | _, _ => False end.
Proof. vm_compute. auto. Qed.
