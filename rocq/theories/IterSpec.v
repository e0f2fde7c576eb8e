(** * Specification of double-ended iterators: a list consumed from both ends. *)
From Verif Require Import Base Spec.

Inductive iter_op := INext | INextBack | INth (n : N) | INthBack (n : N) | ILen.
Inductive iter_out (A : Type) := OItem (o : option A) | OLen (n : N).
Arguments OItem {A} o.
Arguments OLen {A} n.

(** [next] takes the first remaining element, [next_back] the last; [nth n] skips [n] elements and
    takes the next, consuming everything if there are too few; [len] counts what remains. *)
Definition iter_spec {A} (l : list A) (op : iter_op) : list A * iter_out A :=
  match op with
  | INext => (dropN 1 l, OItem (getN l 0))
  | INextBack => (takeN (lenN l - 1) l, OItem (getN (rev l) 0))
  | INth n => (dropN (n + 1) l, OItem (getN l n))
  | INthBack n => (takeN (lenN l - (n + 1)) l, OItem (getN (rev l) n))
  | ILen => (l, OLen (lenN l))
  end.

(** The outputs of a sequence of operations; [ok] restricts the operations. *)
Fixpoint iter_spec_run {A} (l : list A) (ops : list iter_op) : list (iter_out A) :=
  match ops with
  | [] => []
  | op :: ops => let '(l', o) := iter_spec l op in o :: iter_spec_run l' ops
  end.

(** Every [nth]/[nth_back] in the sequence asks for an element that still exists. *)
Fixpoint skips_inside {A} (fwd bwd : bool) (l : list A) (ops : list iter_op) : Prop :=
  match ops with
  | [] => True
  | op :: ops =>
      match op with
      | INth n => if fwd then n < lenN l else True
      | INthBack n => if bwd then n < lenN l else True
      | _ => True
      end /\ skips_inside fwd bwd (fst (iter_spec l op)) ops
  end.

(** Running a modelled iterator. *)
Fixpoint iter_run {S A} (step : S -> iter_op -> res (S * iter_out A)) (s : S) (ops : list iter_op)
  : res (list (iter_out A)) :=
  match ops with
  | [] => Ok []
  | op :: ops =>
      let* '(s', o) := step s op in
      let* os := iter_run step s' ops in
      Ok (o :: os)
  end.
