(** * Common vocabulary of the model: results, checked arithmetic, vectors, 64-bit words.

    Everything here models Rust language/library primitives (checked indexing, checked
    subtraction, shifts, bit counting); the code of /repo itself is in the [*Model.v] files. *)
From Coq Require Export NArith ZArith List Bool Lia.
From Coq Require Export ZifyBool ZifyNat ZifyN.
Export ListNotations.
Global Open Scope N_scope.

(** ** Results of computations.
    [Panic] is any Rust panic (index out of bounds, failed assertion, arithmetic overflow in a
    build with overflow checks). [Diverge] is the out-of-fuel value of a modelled [while] loop. *)
Inductive res (A : Type) : Type :=
| Ok (a : A)
| Panic
| Diverge.
Arguments Ok {A} a.
Arguments Panic {A}.
Arguments Diverge {A}.

Definition bind {A B} (m : res A) (f : A -> res B) : res B :=
  match m with
  | Ok a => f a
  | Panic => Panic
  | Diverge => Diverge
  end.

Notation "'let*' x := e 'in' k" := (bind e (fun x => k))
  (at level 200, x name, e at level 200, k at level 200).
Notation "'let*' ' p := e 'in' k" := (bind e (fun x => match x with p => k end))
  (at level 200, p pattern, e at level 200, k at level 200).

(** [assert!(b)] *)
Definition assert (b : bool) : res unit := if b then Ok tt else Panic.

(** Checked subtraction on [usize]/[u64]. *)
Definition sub (a b : N) : res N := if b <=? a then Ok (a - b) else Panic.

(** 2^64 and checked addition (used where the operands are caller supplied). *)
Definition U64 : N := 18446744073709551616.
Definition add64 (a b : N) : res N := if a + b <? U64 then Ok (a + b) else Panic.
Definition mul64 (a b : N) : res N := if a * b <? U64 then Ok (a * b) else Panic.

(** ** Vectors. *)
Definition lenN {A} (l : list A) : N := N.of_nat (length l).

(** Checked read [v[i]]. *)
Definition idx {A} (l : list A) (i : N) : res A :=
  if i <? lenN l then
    match nth_error l (N.to_nat i) with Some a => Ok a | None => Panic end
  else Panic.

Fixpoint set_nth {A} (l : list A) (n : nat) (v : A) : list A :=
  match l, n with
  | [], _ => []
  | _ :: r, O => v :: r
  | x :: r, S n => x :: set_nth r n v
  end.

(** Checked write [v[i] = x]. *)
Definition set_idx {A} (l : list A) (i : N) (v : A) : res (list A) :=
  if i <? lenN l then Ok (set_nth l (N.to_nat i) v) else Panic.

(** The range [a..b]. *)
Definition range (a b : N) : list N :=
  map (fun i => a + N.of_nat i) (seq 0 (N.to_nat (b - a))).

(** Checked slice [v[a..b]]. *)
Definition slice_chk {A} (l : list A) (a b : N) : res (list A) :=
  if (a <=? b) && (b <=? lenN l)
  then Ok (firstn (N.to_nat (b - a)) (skipn (N.to_nat a) l))
  else Panic.

(** [for x in l { s = f(s, x) }] *)
Fixpoint forM {A S} (l : list A) (s : S) (f : S -> A -> res S) : res S :=
  match l with
  | [] => Ok s
  | x :: r => let* s' := f s x in forM r s' f
  end.

(** A [for]/[while] loop with early exit: the body returns [inl] to continue, [inr] to return. *)
Fixpoint forM_ret {A S R} (l : list A) (s : S) (f : S -> A -> res (S + R)) : res (S + R) :=
  match l with
  | [] => Ok (inl s)
  | x :: r => let* s' := f s x in
              match s' with
              | inl s'' => forM_ret r s'' f
              | inr v => Ok (inr v)
              end
  end.

(** [vec![x; n]] *)
Definition replicate {A} (n : N) (x : A) : list A := repeat x (N.to_nat n).

(** ** 64-bit words. *)

(** [x << n] for n < 64 (the caller guarantees n < 64 syntactically, e.g. [n % 64]). *)
Definition shl64 (x n : N) : N := N.shiftl x n mod U64.

(** [x << n], panicking for n >= 64. *)
Definition shl64_chk (x n : N) : res N := if n <? 64 then Ok (shl64 x n) else Panic.

(** [x >> n], panicking for n >= 64. *)
Definition shr64_chk (x n : N) : res N := if n <? 64 then Ok (N.shiftr x n) else Panic.

(** [!x] *)
Definition not64 (x : N) : N := N.lxor x (U64 - 1).

(** [(1 << n) - 1] for n < 64. *)
Definition lowmask (n : N) : N := shl64 1 n - 1.

(** [1u64.checked_shl(n).unwrap_or(0).wrapping_sub(1)] *)
Definition wrapmask (n : N) : N :=
  ((if n <? 64 then shl64 1 n else 0) + (U64 - 1)) mod U64.

(** [count_ones] *)
Fixpoint pos_popcount (p : positive) : N :=
  match p with
  | xH => 1
  | xO p => pos_popcount p
  | xI p => 1 + pos_popcount p
  end.
Definition popcount (w : N) : N :=
  match w with N0 => 0 | Npos p => pos_popcount p end.

(** [count_zeros] on u64 *)
Definition count_zeros64 (w : N) : N := 64 - popcount w.

(** [trailing_zeros] on u64 *)
Fixpoint pos_ctz (p : positive) : N :=
  match p with
  | xO p => 1 + pos_ctz p
  | _ => 0
  end.
Definition ctz64 (w : N) : N :=
  match w with N0 => 64 | Npos p => pos_ctz p end.

(** Tactic: linear arithmetic with division and modulo by constants. *)
Ltac dlia := zify; Z.div_mod_to_equations; lia.

(* Keep [cbn] from exposing the implementation of binary arithmetic on open terms. *)
#[global] Arguments N.add : simpl nomatch.
#[global] Arguments N.sub : simpl nomatch.
#[global] Arguments N.mul : simpl nomatch.
#[global] Arguments N.div : simpl nomatch.
#[global] Arguments N.modulo : simpl nomatch.
#[global] Arguments N.leb : simpl nomatch.
#[global] Arguments N.ltb : simpl nomatch.
#[global] Arguments N.eqb : simpl nomatch.
#[global] Arguments N.testbit : simpl nomatch.
#[global] Arguments N.pow : simpl nomatch.
#[global] Arguments N.min : simpl nomatch.
