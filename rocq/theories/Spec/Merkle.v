(** Reference notions of Merkle trees and generalized indices, independent of the code. *)
From Coq Require Import List NArith Bool.
From Verif.Model Require Import Base.
Import ListNotations.
Open Scope N_scope.

(** A binary Merkle tree whose leaves carry 32-byte chunks. *)
Inductive mtree := MLeaf (c : bytes) | MNode (l r : mtree).

Fixpoint mroot (H : bytes -> bytes) (t : mtree) : bytes :=
  match t with
  | MLeaf c => c
  | MNode l r => H (mroot H l ++ mroot H r)
  end.

(** Every leaf is a 32-byte chunk. *)
Fixpoint wf_tree (t : mtree) : Prop :=
  match t with
  | MLeaf c => length c = 32%nat
  | MNode l r => wf_tree l /\ wf_tree r
  end.

Definition hash32 (H : bytes -> bytes) : Prop := forall x, length (H x) = 32%nat.

(** A position is a path from the root; [false] goes left, [true] goes right. *)
Definition path := list bool.
(** The SSZ generalized index of a position: 1 for the root, 2g / 2g+1 for the children of g. *)
Definition gindex_step (g : N) (b : bool) : N := 2 * g + (if b then 1 else 0).
Definition gindex_of (p : path) : N := fold_left gindex_step p 1.

Fixpoint subtree (t : mtree) (p : path) {struct p} : option mtree :=
  match p, t with
  | [], _ => Some t
  | b :: q, MNode l r => subtree (if b then r else l) q
  | _ :: _, MLeaf _ => None
  end.
(** The node (hash or chunk) of the tree at a position. *)
Definition node_at (H : bytes -> bytes) (t : mtree) (p : path) : option bytes :=
  option_map (mroot H) (subtree t p).

Fixpoint depth (t : mtree) : nat :=
  match t with MLeaf _ => 0 | MNode l r => S (Nat.max (depth l) (depth r)) end.

(** Leaves from left to right, with their positions. *)
Fixpoint leaves (t : mtree) : list (path * bytes) :=
  match t with
  | MLeaf c => [([], c)]
  | MNode l r => map (fun x => (false :: fst x, snd x)) (leaves l) ++
                 map (fun x => (true :: fst x, snd x)) (leaves r)
  end.

(** Pre-order encoding of the shape: 0 opens an inner node, 1 is a leaf. *)
Fixpoint preorder (t : mtree) : list bool :=
  match t with
  | MLeaf _ => [true]
  | MNode l r => false :: preorder l ++ preorder r
  end.

(** The messages hashed when the root of [t] is computed. *)
Fixpoint hash_inputs (H : bytes -> bytes) (t : mtree) : list bytes :=
  match t with
  | MLeaf _ => []
  | MNode l r => (mroot H l ++ mroot H r) :: hash_inputs H l ++ hash_inputs H r
  end.
(** [H] has no collision among the messages in [l]. *)
Definition injective_on (H : bytes -> bytes) (l : list bytes) : Prop :=
  forall a b, In a l -> In b l -> H a = H b -> a = b.

(** Left-to-right order of positions, a proper prefix coming first. *)
Fixpoint path_compare (p q : path) : comparison :=
  match p, q with
  | [], [] => Eq
  | [], _ :: _ => Lt
  | _ :: _, [] => Gt
  | false :: p', false :: q' => path_compare p' q'
  | true :: p', true :: q' => path_compare p' q'
  | false :: _, true :: _ => Lt
  | true :: _, false :: _ => Gt
  end.
Definition path_lt (p q : path) : Prop := path_compare p q = Lt.
(** [p] is an ancestor of [q] (or [q] itself). *)
Definition ancestor (p q : path) : Prop := exists s, q = p ++ s.
(** No two different positions of [S] are nested. *)
Definition antichain (S : list path) : Prop := forall p q, In p S -> In q S -> ancestor p q -> p = q.
(** The tree has a node at the position. *)
Definition present (T : mtree) (p : path) : Prop := subtree T p <> None.
(** At least two leaves. *)
Definition inner (t : mtree) : Prop := match t with MLeaf _ => False | MNode _ _ => True end.
(** The position with a given (positive) generalized index. *)
Fixpoint pos_path (p : positive) : path :=
  match p with xH => [] | xO q => pos_path q ++ [false] | xI q => pos_path q ++ [true] end.
Definition path_of (g : N) : path := match g with N0 => [] | Npos p => pos_path p end.
