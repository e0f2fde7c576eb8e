(** * Programs of editing calls on a bit vector, over the model and over lists. *)
From Verif Require Import Base Spec BaseFacts WordFacts BitVecModel BitVecProofs BitVecProofs2.

(** How a bit vector can be created. *)
Inductive ctor :=
| CNew
| CZeros (n : N)
| COnes (n : N)
| CBits (l : list N)
| CBools (l : list bool)
| CLimbs (l : list N)
| CPack (maxb : N) (l : list N) (n : N).

(** Editing calls. The vector passed to [extend_bitvec] is itself built by a constructor. *)
Inductive edit :=
| EAppend (b : bool)
| EAppendBit (w : N)
| EAppendWord (w : N)
| EAppendBits (w n : N)
| EExtend (c : ctor)
| EDropLast (n : N)
| EFlip (p : N)
| ESet (p v : N).

(** The arguments have the Rust types (words are 64 bits, packed elements fit their type), and no
    zero-width [append_bits]/pack is used. *)
Definition ctor_ok (c : ctor) : Prop :=
  match c with
  | CBits l => words l
  | CLimbs l => words l
  | CPack maxb l n => In maxb [8; 16; 32; 64] /\ Forall (fun w => w < 2 ^ maxb) l /\ 1 <= n
  | _ => True
  end.
Definition edit_ok (e : edit) : Prop :=
  match e with
  | EAppendBit w | EAppendWord w => w < U64
  | EAppendBits w n => w < U64 /\ 1 <= n
  | EExtend c => ctor_ok c
  | _ => True
  end.

(** *** On lists *)
Definition ctor_spec (c : ctor) : list bool :=
  match c with
  | CNew => []
  | CZeros n => repeat false (N.to_nat n)
  | COnes n => repeat true (N.to_nat n)
  | CBits l => map N.odd l
  | CBools l => l
  | CLimbs l => concat (map (fun w => lowbits w 64) l)
  | CPack maxb l n => concat (map (fun w => lowbits w n) l)
  end.

(** [None]: the call panics. *)
Definition edit_spec (l : list bool) (e : edit) : option (list bool) :=
  match e with
  | EAppend b => Some (l ++ [b])
  | EAppendBit w => Some (l ++ [N.odd w])
  | EAppendWord w => Some (l ++ lowbits w 64)
  | EAppendBits w n => if n <=? 64 then Some (l ++ lowbits w n) else None
  | EExtend c => Some (l ++ ctor_spec c)
  | EDropLast n => Some (takeN (lenN l - n) l)
  | EFlip p => match getN l p with Some b => Some (set_nth l (N.to_nat p) (negb b)) | None => None end
  | ESet p v => match getN l p with Some _ => Some (set_nth l (N.to_nat p) (N.odd v)) | None => Some l end
  end.

Fixpoint run_spec (l : list bool) (es : list edit) : option (list bool) :=
  match es with
  | [] => Some l
  | e :: r => match edit_spec l e with Some l' => run_spec l' r | None => None end
  end.

(** *** On the model *)
Definition ctor_model (c : ctor) : res bitvec :=
  match c with
  | CNew => Ok bv_new
  | CZeros n => Ok (bv_from_zeros n)
  | COnes n => Ok (bv_from_ones n)
  | CBits l => bv_from_bits l
  | CBools l => bv_from_bools l
  | CLimbs l => Ok (bv_from_limbs l)
  | CPack maxb l n => bv_pack maxb l n
  end.

Definition edit_model (bv : bitvec) (e : edit) : res bitvec :=
  match e with
  | EAppend b => bv_append bv b
  | EAppendBit w => bv_append_bit bv w
  | EAppendWord w => bv_append_word bv w
  | EAppendBits w n => bv_append_bits bv w n
  | EExtend c => let* o := ctor_model c in bv_extend bv o
  | EDropLast n => bv_drop_last bv n
  | EFlip p => bv_flip_bit bv p
  | ESet p v => let* r := bv_set bv p v in Ok (match r with Some bv' => bv' | None => bv end)
  end.

Fixpoint run_model (bv : bitvec) (es : list edit) : res bitvec :=
  match es with
  | [] => Ok bv
  | e :: r => let* bv' := edit_model bv e in run_model bv' r
  end.

Lemma bit0_odd_map l : map (fun w => N.testbit w 0) l = map N.odd l.
Proof. apply map_ext. intros. apply N.bit0_odd. Qed.

Lemma ctor_ok_model c :
  ctor_ok c -> exists bv, ctor_model c = Ok bv /\ wf bv /\ bits bv = ctor_spec c.
Proof.
  destruct c; cbn [ctor_ok ctor_model ctor_spec]; intros H.
  - exists bv_new. split; auto. split; [apply bv_new_wf|apply bv_new_bits].
  - eexists. split; [reflexivity|]. apply bv_from_zeros_ok.
  - eexists. split; [reflexivity|]. apply bv_from_ones_ok.
  - rewrite <- bit0_odd_map. apply bv_from_bits_ok.
  - apply bv_from_bools_ok.
  - eexists. split; [reflexivity|]. now apply bv_from_limbs_ok.
  - destruct H as (Hm & Hl & Hn). apply bv_pack_ok; auto; cbn in Hm; lia.
Qed.

Lemma edit_refines bv e :
  wf bv -> edit_ok e ->
  match edit_spec (bits bv) e with
  | Some l => exists bv', edit_model bv e = Ok bv' /\ wf bv' /\ bits bv' = l
  | None => edit_model bv e = Panic
  end.
Proof.
  intros H He. destruct e; cbn [edit_spec edit_model edit_ok] in *.
  - now apply bv_append_ok.
  - rewrite <- N.bit0_odd. now apply bv_append_bit_ok.
  - now apply bv_append_word_ok.
  - destruct (N.leb_spec n 64).
    + apply bv_append_bits_ok; tauto.
    + unfold bv_append_bits, assert. destruct (N.leb_spec n 64); [lia|reflexivity].
  - destruct (ctor_ok_model c He) as (o & -> & Ho & <-). cbn [bind]. now apply bv_extend_ok.
  - rewrite lenN_bits. now apply bv_drop_last_ok.
  - destruct (N.lt_ge_cases p (blen bv)) as [L|L].
    + rewrite (getN_ok false) by (now rewrite lenN_bits). now apply bv_flip_ok.
    + rewrite getN_none by (now rewrite lenN_bits). now apply bv_flip_panic.
  - destruct (N.lt_ge_cases p (blen bv)) as [L|L].
    + rewrite (getN_ok false) by (now rewrite lenN_bits). rewrite <- N.bit0_odd.
      destruct (bv_set_ok bv p v H L) as (bv' & -> & H'). exists bv'. split; auto.
    + rewrite getN_none by (now rewrite lenN_bits). rewrite bv_set_err by auto. exists bv. auto.
Qed.

Lemma run_refines es bv :
  wf bv -> Forall edit_ok es ->
  match run_spec (bits bv) es with
  | Some l => exists bv', run_model bv es = Ok bv' /\ wf bv' /\ bits bv' = l
  | None => run_model bv es = Panic
  end.
Proof.
  revert bv. induction es as [|e es IH]; intros bv H Hes; cbn [run_spec run_model].
  - exists bv. auto.
  - inversion Hes as [|? ? He Hes']; subst. pose proof (edit_refines bv e H He) as G.
    destruct (edit_spec (bits bv) e) as [l|].
    + destruct G as (bv' & -> & H' & <-). cbn [bind]. now apply IH.
    + rewrite G. reflexivity.
Qed.
