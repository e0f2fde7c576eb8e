(** * Property C112: [FastRmq] in release builds. *)
From Verif Require Import Base Spec BaseFacts BitVecModel GenIterModel RmqModel RmqProofs FastRmqProofs PropsRmq PropsRmqTies PropsFastInverted PropsRmqBounds ReleaseModel PropsRelease.

(** No index makes the two builds differ, in or out of bounds, inverted or not. *)
Theorem C112_range_min data r i j : fr_from_vec data = Ok r -> fr_range_min_rel r i j = fr_range_min r i j.
Proof. apply fr_rel_same. Qed.

(** The two builds differ in the bounds that overflow: there the debug build panics, and the release
    build reads a start above [2 ^ 64 - 1] as 0 and an end below 0 as the last index. *)
Theorem C112_with_range data r s e :
  0 < lenN data -> fr_from_vec data = Ok r -> word_bound s -> word_bound e ->
  let lo := N.min (match s with Included i => i | Excluded i => if i =? 2 ^ 64 - 1 then 0 else i + 1 | Unbounded => 0 end) (lenN data - 1) in
  let hi := N.min (match e with Included j => j | Excluded j => if j =? 0 then lenN data - 1 else j - 1 | Unbounded => lenN data - 1 end) (lenN data - 1) in
  (if hi <? lo then inverted_result data lo hi (fr_range_min_with_range_rel r s e)
   else exists k, fr_range_min_with_range_rel r s e = Ok k /\ fast_choice data lo hi k) /\
  fr_range_min_with_range r s e = if bound_overflows s e then Panic else fr_range_min_with_range_rel r s e.
Proof.
  intros Hn E Hs He lo hi. destruct (N.le_gt_cases (lenN data) (2 ^ 39 - 128)) as [H|H]; [|apply C57_length_limit in H; congruence].
  assert (Hd : fr_data r = data).
  { destruct (fr_from_vec_ok data) as (r' & E' & G); [lia|apply N.div_lt_upper_bound; lia|]. rewrite E in E'. injection E' as <-. apply (fg_data _ _ G). }
  assert (Er : fr_range_min_with_range_rel r s e = fr_range_min r lo hi).
  { unfold fr_range_min_with_range_rel. rewrite Hd, clamp_rel by (auto; lia). cbn [bind]. rewrite (fr_rel_same data) by auto. f_equal.
    - unfold lo. f_equal. destruct s as [i|i|]; auto. cbn [first_rel word_bound] in *. destruct (N.eqb_spec i (2 ^ 64 - 1)) as [->|]; [reflexivity|].
      apply N.mod_small. lia.
    - unfold hi. destruct e as [i|i|]; auto. cbn [last_rel]. destruct (N.eqb_spec i 0); lia. }
  rewrite Er. split.
  - destruct (N.ltb_spec hi lo) as [Hl|Hl]; [apply C107_inverted; auto; lia|apply C83_fast; auto; lia].
  - destruct (bound_overflows s e) eqn:Eo.
    + pose proof (C107_with_range data r s e Hn E Hs He) as Q. cbv zeta in Q. now rewrite Eo in Q.
    + unfold fr_range_min_with_range, clamp_bounds. rewrite Hd, (sub_ok (lenN data)) by lia. unfold bound_overflows in Eo. apply orb_false_iff in Eo as [Eo1 Eo2].
      assert (E1 : (match s with Included i => Ok i | Excluded i => add64 i 1 | Unbounded => Ok 0 end) =
        Ok (match s with Included i => i | Excluded i => if i =? 2 ^ 64 - 1 then 0 else i + 1 | Unbounded => 0 end)).
      { destruct s as [i|i|]; auto. rewrite Eo1. unfold add64. change U64 with (2 ^ 64). cbn in Hs. apply N.eqb_neq in Eo1. destruct (N.ltb_spec (i + 1) (2 ^ 64)); auto; lia. }
      assert (E2 : (match e with Included i => Ok i | Excluded i => sub i 1 | Unbounded => Ok (lenN data - 1) end) =
        Ok (match e with Included j => j | Excluded j => if j =? 0 then lenN data - 1 else j - 1 | Unbounded => lenN data - 1 end)).
      { destruct e as [i|i|]; auto. rewrite Eo2. apply N.eqb_neq in Eo2. apply sub_ok. lia. }
      rewrite E1. cbn [bind]. rewrite E2. cbn [bind]. reflexivity.
Qed.
Example C112_ex : match fr_from_vec ex_inv with
  | Ok r => fr_range_min_rel r 127 60 = Ok 121 /\ fr_range_min_rel r 130 200 = Ok 200 /\ fr_range_min_rel r (2 ^ 64 - 1) 3 = Panic /\
            fr_range_min_with_range_rel r (Included 140) (Excluded 0) = Ok 142 /\ fr_range_min_with_range r (Included 140) (Excluded 0) = Panic /\
            fr_range_min_with_range_rel r (Excluded (2 ^ 64 - 1)) (Excluded 20) = Ok 19
  | _ => False end.
Proof. vm_compute. auto 7. Qed.
