(** What it means for a serialized multiproof to describe a proof tree. *)
From Coq Require Import List NArith Bool.
From Verif.Model Require Import Base Multiproof.
From Verif.Spec Require Import Merkle.
Import ListNotations.
Open Scope N_scope.

(** [mp] encodes the proof tree [t]: the descriptor is its pre-order shape and the data starts
    with its leaf chunks from left to right. *)
Definition encodes (mp : Multiproof) (t : mtree) : Prop :=
  mp_descriptor mp = preorder t /\ wf_tree t /\
  exists rest, mp_data mp = concat (map snd (leaves t)) ++ rest.

(** Binary representation, most significant bit first, without leading zeros. *)
Fixpoint pos_bits (p : positive) : list bool :=
  match p with xH => [true] | xO q => pos_bits q ++ [false] | xI q => pos_bits q ++ [true] end.
Definition bits_of (n : N) : list bool := match n with N0 => [] | Npos p => pos_bits p end.

(** Reading an expected sequence of indices, one after the other. *)
Fixpoint read_all (vals : list (N * bytes)) (gs : list N) : outcome MPError (list bytes * list (N * bytes)) :=
  match gs with
  | [] => Ok ([], vals)
  | g :: gs' =>
      match next_assert_gindex vals g with
      | Ok (v, rest) =>
          match read_all rest gs' with
          | Ok (vs, rest') => Ok (v :: vs, rest')
          | Err e => Err e
          | Panic => Panic
          end
      | Err e => Err e
      | Panic => Panic
      end
  end.

(** The node oracle of the builder over a Merkle tree. *)
Definition tree_oracle {E} (e : E) (H : bytes -> bytes) (T : mtree) (g : N) : outcome E bytes :=
  match node_at H T (path_of g) with Some c => Ok c | None => Err e end.
