(** * Model of the index-based iterators (src/util/general_iter.rs).

    The macro [gen_vector_iter_impl] is expanded for [BitVec], [RsVec] and [WaveletMatrix]; the
    model takes the getters of the vector as arguments. [$own] and [$bor] differ in ownership only. *)
From Verif Require Import Base Spec IterSpec.

(** general_iter.rs 237-253 *)
Record gen_iter := mkgi { gi_index : N; gi_back : option N }.

(** general_iter.rs 7-22 *)
Definition gi_new (len : N) : gen_iter :=
  if len =? 0 then mkgi 0 None else mkgi 0 (Some (len - 1)).

(** [Some(x) > o] in the derived order of [Option]. *)
Definition some_gt (x : N) (o : option N) : bool :=
  match o with None => true | Some b => b <? x end.

(** general_iter.rs 72-75 *)
Definition gi_empty (it : gen_iter) : bool := some_gt (gi_index it) (gi_back it).

Definition wrapping_sub (a b : N) : N := (a + U64 - b) mod U64.
Definition wrapping_add (a b : N) : N := (a + b) mod U64.

(** general_iter.rs 127-130 *)
Definition gi_len (it : gen_iter) : N :=
  wrapping_add (wrapping_sub (match gi_back it with Some b => b | None => U64 - 1 end) (gi_index it)) 1.

(** general_iter.rs 30-45; [None] is the error result, whose payload is computed and must not be 0
    ([NonZeroUsize::new(..).unwrap()]). [index + n] is a checked addition. *)
Definition gi_advance_by (it : gen_iter) (n : N) : res (option gen_iter) :=
  if n =? 0 then Ok (Some it)
  else
    let* e := add64 (gi_index it) n in
    if some_gt (e - 1) (gi_back it) then
      if some_gt (gi_index it) (gi_back it) then Ok None
      else
        let* r := sub n (gi_len it) in
        if r =? 0 then Panic else Ok None
    else Ok (Some (mkgi (gi_index it + n) (gi_back it))).

(** general_iter.rs 53-70 *)
Definition gi_advance_back_by (it : gen_iter) (n : N) : res (option gen_iter) :=
  if n =? 0 then Ok (Some it)
  else if gi_empty it then Ok None
  else
    match gi_back it with
    | None => Panic
    | Some b =>
        let* d := sub b (gi_index it) in
        let remaining := d + 1 in
        if remaining <? n then Ok None
        else Ok (Some (mkgi (gi_index it) (if n <=? b then Some (b - n) else None)))
    end.

(** The step back shared by [next_back] of both iterator families, general_iter.rs 141-145 and
    elias_fano_iter.rs 158-162. *)
Definition gi_dec (b : N) : option N := if b =? 0 then None else Some (b - 1).

Section Iter.
Context {A : Type}.
Variable get : N -> res (option A).
Variable get_unchecked : N -> res A.

(** general_iter.rs 81-89 *)
Definition gi_next (it : gen_iter) : res (gen_iter * option A) :=
  if gi_empty it then Ok (it, None)
  else
    let* o := get (gi_index it) in
    match o with
    | Some v => Ok (mkgi (gi_index it + 1) (gi_back it), Some v)
    | None => Ok (it, None)
    end.

(** general_iter.rs 136-148 *)
Definition gi_next_back (it : gen_iter) : res (gen_iter * option A) :=
  if some_gt (gi_index it) (gi_back it) then Ok (it, None)
  else
    match gi_back it with
    | None => Panic
    | Some b =>
        let* o := get b in
        match o with
        | Some v => Ok (mkgi (gi_index it) (gi_dec b), Some v)
        | None => Ok (it, None)
        end
    end.

(** general_iter.rs 120-123 and 150-153; [None] of [advance_by] is the early return of [?]. *)
Definition gi_nth (it : gen_iter) (n : N) : res (gen_iter * option A) :=
  let* o := gi_advance_by it n in
  match o with None => Ok (it, None) | Some it => gi_next it end.
Definition gi_nth_back (it : gen_iter) (n : N) : res (gen_iter * option A) :=
  let* o := gi_advance_back_by it n in
  match o with None => Ok (it, None) | Some it => gi_next_back it end.

(** general_iter.rs 107-116 *)
Definition gi_last (it : gen_iter) : res (option A) :=
  if gi_empty it then Ok None
  else
    match gi_back it with
    | None => Panic
    | Some b => let* v := get_unchecked b in Ok (Some v)
    end.
(** general_iter.rs 99-104 *)
Definition gi_count (it : gen_iter) : N := gi_len it.

Definition gi_step (it : gen_iter) (op : iter_op) : res (gen_iter * iter_out A) :=
  match op with
  | INext => let* '(it, o) := gi_next it in Ok (it, OItem o)
  | INextBack => let* '(it, o) := gi_next_back it in Ok (it, OItem o)
  | INth n => let* '(it, o) := gi_nth it n in Ok (it, OItem o)
  | INthBack n => let* '(it, o) := gi_nth_back it n in Ok (it, OItem o)
  | ILen => Ok (it, OLen (gi_len it))
  end.
End Iter.
