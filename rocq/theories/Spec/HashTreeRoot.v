(** The Merkle tree of a value (ssz/simple-serialize.md, "Merkleization"), for the kinds of
    Spec/StateJsonSpec.v. *)
From Coq Require Import String List Arith NArith Bool.
From Coq.Init Require Import Byte.
From Verif.Model Require Import Base StateJson.
From Verif.Spec Require Import Merkle Beacon StateJsonSpec.
Import ListNotations.
Open Scope list_scope.
Open Scope N_scope.

Definition basic (k : kind) : bool := match k with Uint _ | Boolean => true | _ => false end.
(** size_of and serialize, for basic types. *)
Definition basic_size (k : kind) : N := match k with Uint n => N.of_nat n | _ => 1 end.
Definition basic_bytes (k : kind) (v : val) : bytes :=
  match k, v with
  | Uint n, VNum x => le_bytes n x
  | Boolean, VBool b => [if b then x01 else x00]
  | _, _ => []
  end.
(** pack_bytes and pack: chunks of 32 bytes, the last one filled with zeros. *)
Definition pad32 (b : bytes) : bytes := b ++ repeat x00 (32 - length b).
Definition pack (b : bytes) : list bytes :=
  map (fun i => pad32 (firstn 32 (skipn (32 * i) b))) (seq 0 ((length b + 31) / 32)).
(** The depth of a tree of [n] chunks. *)
Definition levels (n : N) : nat := N.to_nat (N.log2_up n).
(** mix_in_length *)
Definition with_length (t : mtree) (n : N) : mtree := MNode t (MLeaf (le_bytes 32 n)).

(** The tree behind hash_tree_root; [fill] (Spec/Beacon.v) is merkleize. *)
Fixpoint ssz_tree (H : bytes -> bytes) (k : kind) (v : val) : mtree :=
  match k, v with
  | Uint n, VNum x => MLeaf (pad32 (le_bytes n x))
  | Boolean, VBool b => MLeaf (pad32 [if b then x01 else x00])
  | ByteVector n, VBytes b => fill H (levels ((n + 31) / 32)) (map MLeaf (pack b))
  | ByteList limit, VBytes b => with_length (fill H (levels ((limit + 31) / 32)) (map MLeaf (pack b))) (N.of_nat (length b))
  | Vector k' n, VSeq vs =>
      if basic k' then fill H (levels ((n * basic_size k' + 31) / 32)) (map MLeaf (pack (concat (map (basic_bytes k') vs))))
      else fill H (levels n) (map (ssz_tree H k') vs)
  | List_ k' limit, VSeq vs =>
      with_length
        (if basic k' then fill H (levels ((limit * basic_size k' + 31) / 32)) (map MLeaf (pack (concat (map (basic_bytes k') vs))))
         else fill H (levels limit) (map (ssz_tree H k') vs))
        (N.of_nat (length vs))
  | Container fs, VSeq vs =>
      fill H (levels (N.of_nat (length fs)))
        ((fix each (fs : list (string * kind)) (vs : list val) : list mtree :=
            match fs, vs with
            | (_, k') :: fs', x :: vs' => ssz_tree H k' x :: each fs' vs'
            | _, _ => []
            end) fs vs)
  | Bitvector n, VBits l => fill H (levels ((n + 255) / 256)) (map MLeaf (pack (bitfield l)))
  | Bitlist limit, VBits l => with_length (fill H (levels ((limit + 255) / 256)) (map MLeaf (pack (bitfield l)))) (N.of_nat (length l))
  | _, _ => MLeaf (repeat x00 32)
  end.
Definition hash_tree_root (H : bytes -> bytes) (k : kind) (v : val) : bytes := mroot H (ssz_tree H k v).

(** No collision of the hash function shows in the computation of the two roots. *)
Definition no_collision (H : bytes -> bytes) (t t' : mtree) : Prop := injective_on H (hash_inputs H t ++ hash_inputs H t').

(** As for all types of the consensus specification: numbers take at most one chunk, limits are below 2^64. *)
Fixpoint small (k : kind) : bool :=
  match k with
  | Uint n => (n <=? 32)%nat
  | Boolean | ByteVector _ => true
  | ByteList n => n <? 2 ^ 64
  | Vector k' _ => small k'
  | List_ k' n => (n <? 2 ^ 64) && small k'
  | Container fs => (fix go (fs : list (string * kind)) : bool := match fs with [] => true | (_, k') :: r => small k' && go r end) fs
  | Bitvector _ => true
  | Bitlist n => n <? 2 ^ 64
  end.
