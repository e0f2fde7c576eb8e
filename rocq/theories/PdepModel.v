(** * Model of [util/pdep.rs] for every integer type it is implemented for.

    Numbers are bit patterns: a value of a signed type of width [w] is its two's complement pattern
    in [0, 2^w). *)
From Verif Require Import Base.

(** ** util/pdep.rs 115-129: the loop, for a type of [w] bits.
    [mask - 1] is the only operation that can overflow in a debug build: for an unsigned type it
    cannot, since [mask] is not 0, and for a signed type it does when [mask] is the smallest number,
    whose pattern is [2^(w-1)]. Each iteration clears a bit, so fuel [w + 1] is enough. *)
Fixpoint pdepw_loop (fuel : nat) (w : N) (signed : bool) (value mask bb r : N) : res N :=
  if mask =? 0 then Ok r
  else
    match fuel with
    | O => Diverge
    | S fuel =>
        let r := if negb (N.land value bb =? 0)
                 then N.lor r (N.land mask ((2 ^ w - mask) mod 2 ^ w)) else r in
        let* m1 := (if signed && (mask =? 2 ^ (w - 1)) then Panic else Ok (mask - 1)) in
        pdepw_loop fuel w signed value (N.land mask m1) ((bb + bb) mod 2 ^ w) r
    end.

(** util/pdep.rs 113-131 and 158-165, software variant. [impl_all!] in lines 170-187 instantiates it
    with [w] = 8 and 16 everywhere, and 32 and 64 where the instruction is missing. *)
Definition pdepw (w : N) (signed : bool) (value mask : N) : res N :=
  pdepw_loop (S (N.to_nat w)) w signed value mask 1 0.

(** util/pdep.rs 139-144: the instruction [PDEP], following the pseudo-code of the reference that
    lines 41-45 link to:
    [TEMP := SRC1; MASK := SRC2; DEST := 0; m := 0; k := 0;
     DO WHILE m < OperandSize: IF MASK[m] = 1 THEN DEST[m] := TEMP[k]; k := k + 1; m := m + 1]. *)
Fixpoint pdep_hw_loop (todo : nat) (temp mask dest m k : N) : N :=
  match todo with
  | O => dest
  | S todo =>
      if N.testbit mask m
      then pdep_hw_loop todo temp mask
             (if N.testbit temp k then N.setbit dest m else N.clearbit dest m) (m + 1) (k + 1)
      else pdep_hw_loop todo temp mask dest (m + 1) k
  end.
Definition pdep_hw (w value mask : N) : N := pdep_hw_loop (N.to_nat w) value mask 0 0 0.
