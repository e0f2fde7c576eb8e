(** * Ordered trees and their balanced parenthesis encoding. Nothing here refers to the model. *)
From Verif Require Import Base Spec.

(** An ordered tree. A node is named by the path of child numbers leading to it from the root. *)
Inductive tree := Node (children : list tree).
Definition path := list nat.
Definition children (t : tree) : list tree := match t with Node cs => cs end.

(** An opening parenthesis ([true]), the children, a closing parenthesis. *)
Fixpoint enc (t : tree) : list bool := match t with Node cs => true :: flat_map enc cs ++ [false] end.

(** The subtree at a path. *)
Fixpoint subtree (t : tree) (p : path) : option tree :=
  match p with
  | [] => Some t
  | i :: p => match nth_error (children t) i with Some c => subtree c p | None => None end
  end.
(** Position of the opening parenthesis of the node at a path. *)
Fixpoint handle (t : tree) (p : path) : N :=
  match p with
  | [] => 0
  | i :: p => 1 + lenN (flat_map enc (firstn i (children t))) +
              match nth_error (children t) i with Some c => handle c p | None => 0 end
  end.
(** Position of the closing parenthesis. *)
Definition closing (t : tree) (p : path) : N :=
  match subtree t p with Some s => handle t p + lenN (enc s) - 1 | None => 0 end.

(** The paths of all nodes in pre-order and post-order. *)
Definition forest_paths (f : tree -> list path) : nat -> list tree -> list path :=
  fix go (i : nat) (cs : list tree) : list path :=
    match cs with [] => [] | c :: cs => map (cons i) (f c) ++ go (S i) cs end.
Fixpoint preorder (t : tree) : list path := match t with Node cs => [] :: forest_paths preorder 0 cs end.
Fixpoint postorder (t : tree) : list path := match t with Node cs => forest_paths postorder 0 cs ++ [[]] end.
(** The nodes of depth [k] from left to right. *)
Definition level (t : tree) (k : N) : list path := filter (fun p => lenN p =? k) (preorder t).
(** Number of nodes. *)
Fixpoint tsize (t : tree) : N := match t with Node cs => 1 + fold_right N.add 0 (map tsize cs) end.
Fixpoint is_prefix (a d : path) : bool :=
  match a, d with
  | [], _ => true
  | x :: a, y :: d => (x =? y)%nat && is_prefix a d
  | _ :: _, [] => false
  end.
