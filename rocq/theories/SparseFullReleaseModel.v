(** * Release builds of [SparseRSVec] on top of release builds of [EliasFanoVec], src/bit_vec/sparse.rs.

    The constructor accepts any input: neither its own debug assertions nor the one of
    [EliasFanoVec::from_slice] exists. Subtractions wrap. *)
From Verif Require Import Base Spec BitVecModel RsVecModel GenIterModel EFModel EFReleaseModel SparseModel.

(** sparse.rs 65-76; [w] is the width chosen by [EliasFanoVec::from_slice]. *)
Definition sp_new_release (w : N) (input : list N) (len : N) : res sparse :=
  let* v := ef_from_slice_rel w input in Ok (mksp v len).
(** sparse.rs 151-153 and 177-179 *)
Definition sp_is_set_unchecked_release (s : sparse) (i : N) : res bool :=
  let* p := ef_predecessor_unchecked_rel (sp_vec s) i in Ok (p =? i).
Definition sp_get_unchecked_release (s : sparse) (i : N) : res N :=
  let* b := sp_is_set_unchecked_release s i in Ok (bitN b).
(** sparse.rs 159-166 and 184-186 *)
Definition sp_is_set_release (s : sparse) (i : N) : res (option bool) :=
  if sp_len s <=? i then Ok None
  else
    let* o := ef_predecessor_rel (sp_vec s) i in
    Ok (Some (match o with Some p => p =? i | None => false end)).
Definition sp_get_release (s : sparse) (i : N) : res (option N) :=
  let* o := sp_is_set_release s i in Ok (option_map bitN o).
(** sparse.rs 194-196 *)
Definition sp_select1_release (s : sparse) (i : N) : res N :=
  let* o := ef_get_rel (sp_vec s) i in Ok (match o with Some x => x | None => sp_len s end).
(** sparse.rs 202-204 and 210-216 *)
Definition sp_rank1_release (s : sparse) (i : N) : res N := ef_rank_rel (sp_vec s) i.
Definition sp_rank0_release (s : sparse) (i : N) : res N :=
  if sp_len s <=? i then let* r := ef_rank_rel (sp_vec s) (sp_len s) in Ok (wrapping_sub (sp_len s) r)
  else let* r := ef_rank_rel (sp_vec s) i in Ok (wrapping_sub i r).
