(** The shuffle that core/src/committee_cache.rs:87-93 calls: [shuffle_list] of the crate
    swap_or_not_shuffle (Lighthouse). The crate is external and its source is not in /repo; this is
    its published algorithm, written out, for [forwards = false], which is what is called. *)
From Coq Require Import List NArith Bool.
From Coq.Init Require Import Byte.
From Verif.Model Require Import Base Types.
Import ListNotations.
Open Scope N_scope.

(** [input.swap(i, j)]; both indices are in range whenever it is called. *)
Fixpoint upd {A} (l : list A) (i : nat) (x : A) : list A :=
  match l, i with
  | [], _ => []
  | _ :: r, O => x :: r
  | a :: r, S i' => a :: upd r i' x
  end.
Definition swap {A} (l : list A) (i j : N) : list A :=
  match nth_error l (N.to_nat i), nth_error l (N.to_nat j) with
  | Some a, Some b => upd (upd l (N.to_nat i) b) (N.to_nat j) a
  | _, _ => l
  end.

Section Shuffle.
  Variable H : bytes -> bytes.                       (* SHA-256 *)
  Variable seed : bytes.

  (** [Buf]: seed, round byte, position as four little-endian bytes; [hash] hashes all of it. *)
  Definition source_hash (r : N) (position : N) : bytes := H (seed ++ [byte_of_N r] ++ le_bytes 4 position).
  (** [raw_pivot]: the first eight bytes of the hash of seed and round. *)
  Definition raw_pivot (r : N) : N := le_val (firstn 8 (H (seed ++ [byte_of_N r]))).
  (** [source[(j & 0xff) >> 3]] *)
  Definition source_byte (source : bytes) (j : N) : byte := nth (N.to_nat (N.shiftr (N.land j 255) 3)) source x00.

  (** One of the two inner loops: [n] more iterations, at positions [i] (ascending) and [j]
      (descending), with the cached hash and the cached byte. *)
  Fixpoint inner {A} (r : N) (n : nat) (i j : N) (source : bytes) (byte_v : byte) (l : list A) : list A :=
    match n with
    | O => l
    | S n' =>
        let source := if N.land j 255 =? 255 then source_hash r (N.shiftr j 8) else source in
        let byte_v := if N.land j 7 =? 7 then source_byte source j else byte_v in
        let l := if N.testbit (Byte.to_N byte_v) (N.land j 7) then swap l i j else l in
        inner r n' (i + 1) (j - 1) source byte_v l
    end.
  (** The two halves of a round: up to the pivot and after it. *)
  Definition half {A} (r : N) (from upto count : N) (l : list A) : list A :=
    let source := source_hash r (N.shiftr upto 8) in
    inner r (N.to_nat count) from upto source (source_byte source upto) l.
  (** [pivot_bits] is the width in which the pivot is reduced: 64 if [raw_pivot() % list_size] is computed
      in u64, the width of [usize] if the raw pivot is first cast to it. *)
  Definition round {A} (pivot_bits : N) (r : N) (l : list A) : list A :=
    let size := N.of_nat (length l) in
    let pivot := (raw_pivot r mod 2 ^ pivot_bits) mod size in
    let l := half r 0 pivot (N.shiftr (pivot + 1) 1) l in
    half r (pivot + 1) (size - 1) (N.shiftr (pivot + size + 1) 1 - (pivot + 1)) l.
  (** The rounds from the last to the first. *)
  Fixpoint rounds_down {A} (pivot_bits : N) (n : nat) (l : list A) : list A :=
    match n with
    | O => l
    | S r => rounds_down pivot_bits r (round pivot_bits (N.of_nat r) l)
    end.
End Shuffle.

(** [shuffle_list(input, rounds, seed, false)] *)
Definition swap_or_not {A} (H : bytes -> bytes) (pivot_bits usize_bits : N) (input : list A) (rounds : N) (seed : bytes) : option (list A) :=
  let list_size := N.of_nat (length input) in
  if (list_size =? 0) || ((2 ^ usize_bits - 1) / 2 <? list_size) || (2 ^ 24 <? list_size) || (rounds =? 0) then None
  else Some (rounds_down H seed pivot_bits (N.to_nat rounds) input).

(** The externals with this shuffle. *)
Definition with_swap_or_not (X : Externals) (pivot_bits : N) : Externals :=
  mkExternals (sha256 X) (pk_serialize X) (bls_verify X) (swap_or_not (sha256 X) pivot_bits (usize_bits X)) (usize_bits X).
