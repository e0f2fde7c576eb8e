(** * Loop budgets of the Elias-Fano iterators. *)
From Verif Require Import Base BitVecModel RsVecModel RsIterModel GenIterModel EFModel CostModel CostIterModel.

(** iter.rs 383-394 for the one-bits *)
Definition sel_last_cut (kb kl : nat) (rs : rsvec) (it : sel_iter) : res (option N) :=
  if sel_len it =? 0 then Ok None
  else
    let '(it, ok) := advance_by it (sel_len it - 1) in
    if (ok : bool) then let* '(_, o) := select_next_1_cut kb kl rs it in Ok o else Ok None.

(** elias_fano_iter.rs 69-80 *)
Definition ei_next_cut (kb kl : nat) (e : ef) (it : ef_iter) : res (ef_iter * option N) :=
  let* '(u, x) := select_next_1_cut kb kl (ef_upper e) (ei_up it) in
  match x with
  | None => Ok (mkei u (ei_gi it), None)
  | Some pos =>
      let* v := ei_value e pos (gi_index (ei_gi it)) in
      let* v := add64 v (ef_zero e) in
      Ok (mkei u (mkgi (gi_index (ei_gi it) + 1) (gi_back (ei_gi it))), Some v)
  end.

(** elias_fano_iter.rs 98-111 and 132-138 *)
Definition ei_last_cut (kb kl : nat) (e : ef) (it : ef_iter) : res (option N) :=
  if gi_empty (ei_gi it) then Ok None
  else
    let* x := sel_last_cut kb kl (ef_upper e) (ei_up it) in
    match x, gi_back (ei_gi it) with
    | Some pos, Some b => let* v := ei_value e pos b in Ok (Some v)
    | _, _ => Panic
    end.
Definition ei_max_cut (kb kl : nat) (e : ef) (it : ef_iter) : res (option N) := ei_last_cut kb kl e it.

(** Calling [next] once for each budget in [ks], or until the iterator is exhausted. *)
Fixpoint ei_run_cut (kb : nat) (ks : list nat) (e : ef) (it : ef_iter) : res (list N) :=
  match ks with
  | [] => Ok []
  | k :: ks =>
      let* '(it, o) := ei_next_cut kb k e it in
      match o with
      | None => Ok []
      | Some x => let* l := ei_run_cut kb ks e it in Ok (x :: l)
      end
  end.
