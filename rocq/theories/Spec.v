(** * Specification vocabulary.

    Plain list-level definitions; nothing here refers to the model. *)
From Verif Require Import Base.

(** Element [i] of a list, if it exists. *)
Definition getN {A} (l : list A) (i : N) : option A :=
  if i <? lenN l then nth_error l (N.to_nat i) else None.

(** Number of occurrences of the bit [b]. *)
Fixpoint count (b : bool) (l : list bool) : N :=
  match l with
  | [] => 0
  | x :: r => (if Bool.eqb x b then 1 else 0) + count b r
  end.

(** The first [n] elements, and the rest. *)
Definition takeN {A} (n : N) (l : list A) : list A := firstn (N.to_nat n) l.
Definition dropN {A} (n : N) (l : list A) : list A := skipn (N.to_nat n) l.

(** The elements at positions [a, a+n). *)
Definition sliceN {A} (a n : N) (l : list A) : list A := takeN n (dropN a l).

(** rank: occurrences of [b] strictly before position [p]. *)
Definition rank_spec (b : bool) (l : list bool) (p : N) : N := count b (takeN p l).

(** Positions at which the bit [b] occurs, ascending. *)
Fixpoint positions_from (b : bool) (i : N) (l : list bool) : list N :=
  match l with
  | [] => []
  | x :: r => if Bool.eqb x b then i :: positions_from b (i + 1) r
              else positions_from b (i + 1) r
  end.
Definition positions (b : bool) (l : list bool) : list N := positions_from b 0 l.

(** select: position of the (k+1)-th [b], or the length if there are too few. *)
Definition select_spec (b : bool) (l : list bool) (k : N) : N :=
  match getN (positions b l) k with Some p => p | None => lenN l end.

(** Little-endian value of a bit list. *)
Fixpoint value (l : list bool) : N :=
  match l with
  | [] => 0
  | b :: r => (if b then 1 else 0) + 2 * value r
  end.

(** The low [n] bits of a number, least significant first. *)
Definition lowbits (w n : N) : list bool := map (N.testbit w) (range 0 n).

(** A bit as a number. *)
Definition bitN (b : bool) : N := if b then 1 else 0.
