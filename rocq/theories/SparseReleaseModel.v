(** * Release builds of the sparse vector, src/bit_vec/sparse.rs. *)
From Verif Require Import Base Spec BitVecModel RsVecModel IterSpec RsIterModel GenIterModel EFModel SparseModel.

(** sparse.rs 65-76 without the debug assertions. [ef_from_slice] keeps the one on ascending order, so
    this is the release build for ascending input only. *)
Definition sp_new_rel (w : N) (input : list N) (len : N) : res sparse :=
  let* v := ef_from_slice w input in Ok (mksp v len).
(** sparse.rs 210-216 with wrapping subtraction *)
Definition sp_rank0_rel (s : sparse) (i : N) : res N :=
  if sp_len s <=? i then let* r := ef_rank (sp_vec s) (sp_len s) in Ok (wrapping_sub (sp_len s) r)
  else let* r := ef_rank (sp_vec s) i in Ok (wrapping_sub i r).
