(** How many entries a stack needs to compute the root of a proof tree in pre-order: a marker for the node
    while its left child is computed, then the marker and the left value while the right one is. *)
From Coq Require Import List NArith.
From Verif.Spec Require Import Merkle.
Open Scope N_scope.

Fixpoint need (t : mtree) : N :=
  match t with
  | MLeaf _ => 1
  | MNode l r => N.max (1 + need l) (2 + need r)
  end.
