(** * Model of [SparseRSVec], src/bit_vec/sparse.rs. *)
From Verif Require Import Base Spec BitVecModel RsVecModel IterSpec RsIterModel GenIterModel EFModel.

(** sparse.rs 48-51 *)
Record sparse := mksp { sp_vec : ef; sp_len : N }.

(** [input.windows(2).all(|w| w[0] != w[1])] *)
Fixpoint windows_distinct (l : list N) : bool :=
  match l with
  | a :: ((b :: _) as r) => negb (a =? b) && windows_distinct r
  | _ => true
  end.

(** sparse.rs 65-76; [w] is the width chosen by [EliasFanoVec::from_slice]. *)
Definition sp_new (w : N) (input : list N) (len : N) : res sparse :=
  let* _ := assert (windows_sorted input) in
  let* _ := assert (windows_distinct input) in
  let* v := ef_from_slice w input in
  Ok (mksp v len).

(** Calling [next] until it returns [None], as [collect] does. *)
Fixpoint gi_drain {A} (fuel : nat) (get : N -> res (option A)) (it : gen_iter) : res (list A) :=
  match fuel with
  | O => Diverge
  | S fuel =>
      let* '(it, o) := gi_next get it in
      match o with
      | None => Ok []
      | Some x => let* r := gi_drain fuel get it in Ok (x :: r)
      end
  end.
(** [input.iter().enumerate().filter(|&(_, bit)| bit == b).map(|(i, _)| i as u64).collect()] *)
Definition sp_positions (b : N) (input : bitvec) : res (list N) :=
  let* l := gi_drain (S (N.to_nat (bv_length input))) (bv_get input) (gi_new (bv_length input)) in
  Ok (map fst (filter (fun p => snd p =? b) (combine (range 0 (lenN l)) l))).
(** sparse.rs 83-95 *)
Definition sp_from_bitvec (w : N) (input : bitvec) : res sparse :=
  let* l := sp_positions 1 input in sp_new w l (bv_length input).
(** sparse.rs 130-142 *)
Definition sp_from_bitvec_inverted (w : N) (input : bitvec) : res sparse :=
  let* l := sp_positions 0 input in sp_new w l (bv_length input).
(** sparse.rs 244-254: both [From] implementations. *)
Definition sp_from (w : N) (input : bitvec) : res sparse := sp_from_bitvec_inverted w input.

(** sparse.rs 151-153 and 177-179 *)
Definition sp_is_set_unchecked (s : sparse) (i : N) : res bool :=
  let* p := ef_predecessor_unchecked (sp_vec s) i in Ok (p =? i).
Definition sp_get_unchecked (s : sparse) (i : N) : res N :=
  let* b := sp_is_set_unchecked s i in Ok (bitN b).
(** sparse.rs 159-166 and 184-186 *)
Definition sp_is_set (s : sparse) (i : N) : res (option bool) :=
  if sp_len s <=? i then Ok None
  else
    let* o := ef_predecessor (sp_vec s) i in
    Ok (Some (match o with Some p => p =? i | None => false end)).
Definition sp_get (s : sparse) (i : N) : res (option N) :=
  let* o := sp_is_set s i in Ok (option_map bitN o).
(** sparse.rs 194-196 *)
Definition sp_select1 (s : sparse) (i : N) : res N :=
  let* o := ef_get (sp_vec s) i in Ok (match o with Some x => x | None => sp_len s end).
(** sparse.rs 202-204 and 210-216 *)
Definition sp_rank1 (s : sparse) (i : N) : res N := ef_rank (sp_vec s) i.
Definition sp_rank0 (s : sparse) (i : N) : res N :=
  if sp_len s <=? i then let* r := ef_rank (sp_vec s) (sp_len s) in sub (sp_len s) r
  else let* r := ef_rank (sp_vec s) i in sub i r.
(** sparse.rs 220-222 *)
Definition sp_iter1 (s : sparse) : res ef_iter := ef_iter_new (sp_vec s).
