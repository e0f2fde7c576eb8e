(** * The contract that the index-based iterators actually implement. *)
From Verif Require Import Base Spec BaseFacts IterSpec.

(** [front] counts the elements skipped or taken at the front. [nth n] with [n] equal to the number
    of remaining elements exhausts the iterator, a larger [n] returns [None] and changes nothing,
    and [front + n] beyond the word size panics. *)
Definition lazy_step {A} (s : N * list A) (op : iter_op) : res ((N * list A) * iter_out A) :=
  let '(front, l) := s in
  match op with
  | INext => Ok ((front + N.min 1 (lenN l), dropN 1 l), OItem (getN l 0))
  | INextBack => Ok ((front, takeN (lenN l - 1) l), OItem (getN (rev l) 0))
  | INth n =>
      if (0 <? n) && (2 ^ 64 <=? front + n) then Panic
      else if lenN l <? n then Ok ((front, l), OItem None)
      else Ok ((front + N.min (n + 1) (lenN l), dropN (n + 1) l), OItem (getN l n))
  | INthBack n =>
      if lenN l <? n then Ok ((front, l), OItem None)
      else Ok ((front, takeN (lenN l - (n + 1)) l), OItem (getN (rev l) n))
  | ILen => Ok ((front, l), OLen (lenN l))
  end.

(** Where [nth] and [nth_back] only ask for existing elements, this is the standard contract. *)
Lemma lazy_standard {A} ops : forall front (l : list A), front + lenN l < 2 ^ 64 -> skips_inside true true l ops ->
  iter_run lazy_step (front, l) ops = Ok (iter_spec_run l ops).
Proof.
  induction ops as [|op ops IH]; intros front l Hf Hs; [reflexivity|]. destruct Hs as [Hop Hs].
  cbn [iter_run iter_spec_run]. destruct op; cbn [lazy_step iter_spec fst] in *.
  - cbn [bind]. rewrite IH by (rewrite ?lenN_dropN; auto; lia). reflexivity.
  - cbn [bind]. rewrite IH by (rewrite ?lenN_takeN; auto; lia). reflexivity.
  - destruct (N.leb_spec (2 ^ 64) (front + n)); [lia|]. rewrite andb_false_r. destruct (N.ltb_spec (lenN l) n); [lia|].
    cbn [bind]. rewrite IH by (rewrite ?lenN_dropN; auto; lia). reflexivity.
  - destruct (N.ltb_spec (lenN l) n); [lia|]. cbn [bind]. rewrite IH by (rewrite ?lenN_takeN; auto; lia). reflexivity.
  - cbn [bind]. rewrite IH by auto. reflexivity.
Qed.
