(** * Release-build versions of the Elias-Fano iterators (src/util/elias_fano_iter.rs).

    Arithmetic on the indices and values wraps modulo 2^64. The select iterator inside is the one of
    [RsIterModel.v]: it is only asked for elements with its own bounds checks, which hold where the
    debug model answers, and its [nth] has no arithmetic that overflows. *)
From Verif Require Import Base BitVecModel RsVecModel IterSpec RsIterModel GenIterModel ReleaseModel EFModel EFReleaseModel.

Local Notation wsub := wrapping_sub.
Local Notation wadd := wrapping_add.

(** elias_fano_iter.rs 10-29; [gi_advance_by_rel] is the same index arithmetic. The panic is
    [expect("upper iterator should not be exhausted")]. *)
Definition ei_advance_by_rel (e : ef) (it : ef_iter) (n : N) : res (option ef_iter) :=
  if n =? 0 then Ok (Some it)
  else
    let* o := gi_advance_by_rel (ei_gi it) n in
    match o with
    | None => Ok None
    | Some gi =>
        let* '(u, x) := sel_nth false (ef_upper e) (ei_up it) (n - 1) in
        match x with None => Panic | Some _ => Ok (Some (mkei u gi)) end
    end.

(** The value read at upper position [pos] and index [i], without [universe_zero]. *)
Definition ei_value_rel (e : ef) (pos i : N) : res N :=
  let* lower := ef_low_rel e i in
  Ok (N.lor (shl64 (wsub (wsub pos i) 1) (ef_w e)) lower).

(** elias_fano_iter.rs 69-80 *)
Definition ei_next_rel (e : ef) (it : ef_iter) : res (ef_iter * option N) :=
  let* '(u, x) := sel_next false (ef_upper e) (ei_up it) in
  match x with
  | None => Ok (mkei u (ei_gi it), None)
  | Some pos =>
      let* v := ei_value_rel e pos (gi_index (ei_gi it)) in
      Ok (mkei u (mkgi (wadd (gi_index (ei_gi it)) 1) (gi_back (ei_gi it))), Some (wadd v (ef_zero e)))
  end.

(** elias_fano_iter.rs 151-167 *)
Definition ei_next_back_rel (e : ef) (it : ef_iter) : res (ef_iter * option N) :=
  let* '(u, x) := sel_next_back false (ef_upper e) (ei_up it) in
  match x with
  | None => Ok (mkei u (ei_gi it), None)
  | Some pos =>
      match gi_back (ei_gi it) with
      | None => Panic
      | Some b =>
          let* v := ei_value_rel e pos b in
          Ok (mkei u (mkgi (gi_index (ei_gi it)) (gi_dec b)), Some (wadd v (ef_zero e)))
      end
  end.

(** elias_fano_iter.rs 115-118 and 169-172; the subtractions of [advance_back_by] (37-58) are
    guarded, so it is that of [EFModel.v]. *)
Definition ei_nth_rel (e : ef) (it : ef_iter) (n : N) : res (ef_iter * option N) :=
  let* o := ei_advance_by_rel e it n in
  match o with None => Ok (it, None) | Some it => ei_next_rel e it end.
Definition ei_nth_back_rel (e : ef) (it : ef_iter) (n : N) : res (ef_iter * option N) :=
  let* o := ei_advance_back_by e it n in
  match o with None => Ok (it, None) | Some it => ei_next_back_rel e it end.

(** elias_fano_iter.rs 98-111 *)
Definition ei_last_rel (e : ef) (it : ef_iter) : res (option N) :=
  if gi_empty (ei_gi it) then Ok None
  else
    let* x := sel_last false (ef_upper e) (ei_up it) in
    match x, gi_back (ei_gi it) with
    | Some pos, Some b => let* v := ei_value_rel e pos b in Ok (Some v)
    | _, _ => Panic
    end.
(** elias_fano_iter.rs 122-138 *)
Definition ei_min_rel (e : ef) (it : ef_iter) : res (option N) := let* '(_, o) := ei_next_rel e it in Ok o.
Definition ei_max_rel (e : ef) (it : ef_iter) : res (option N) := ei_last_rel e it.

Definition ei_step_rel (e : ef) (it : ef_iter) (op : iter_op) : res (ef_iter * iter_out N) :=
  match op with
  | INext => let* '(it, o) := ei_next_rel e it in Ok (it, OItem o)
  | INextBack => let* '(it, o) := ei_next_back_rel e it in Ok (it, OItem o)
  | INth n => let* '(it, o) := ei_nth_rel e it n in Ok (it, OItem o)
  | INthBack n => let* '(it, o) := ei_nth_back_rel e it n in Ok (it, OItem o)
  | ILen => Ok (it, OLen (ei_len it))
  end.
