(** The shuffling of the consensus specification (phase0/beacon-chain.md), index by index. *)
From Coq Require Import List NArith.
From Coq.Init Require Import Byte.
From Verif.Model Require Import Base Types.
From Verif.Spec Require Import Committees.
Import ListNotations.
Open Scope N_scope.

Section Spec.
  Variable hash : bytes -> bytes.
  Variable seed : bytes.

  (** The body of the loop of compute_shuffled_index, for the round [current_round]. *)
  Definition shuffle_round (index_count current_round index : N) : N :=
    let pivot := le_val (firstn 8 (hash (seed ++ le_bytes 1 current_round))) mod index_count in
    let flip := (pivot + index_count - index) mod index_count in
    let position := N.max index flip in
    let source := hash (seed ++ le_bytes 1 current_round ++ le_bytes 4 (position / 256)) in
    let byte := Byte.to_N (nth (N.to_nat (position mod 256 / 8)) source x00) in
    let bit := byte / 2 ^ (position mod 8) mod 2 in
    if bit =? 0 then index else flip.
  (** compute_shuffled_index with [rounds] rounds. *)
  Fixpoint compute_shuffled_index (index_count : N) (rounds : nat) (index : N) : N :=
    match rounds with
    | O => index
    | S r => shuffle_round index_count (N.of_nat r) (compute_shuffled_index index_count r index)
    end.
  (** compute_committee: committee [index] of [count] over a list of validator indices. *)
  Definition spec_committee (rounds : nat) (indices : list N) (index count : N) : list N :=
    let n := N.of_nat (length indices) in
    let start := N.to_nat (n * index / count) in
    let stop := N.to_nat (n * (index + 1) / count) in
    map (fun i => nth (N.to_nat (compute_shuffled_index n rounds (N.of_nat i))) indices 0)
        (seq start (stop - start)).
  (** get_beacon_committee, with [cps] committees in each of [spe] slots. *)
  Definition spec_beacon_committee (rounds : nat) (indices : list N) (spe cps slot index : N) : list N :=
    spec_committee rounds indices (slot mod spe * cps + index) (cps * spe).
  (** get_attesting_indices: the committees named by the committee bits, one after the other, and of
      their members those whose aggregation bit is set. *)
  Definition spec_attesters (rounds : nat) (indices : list N) (spe cps : N) (a : Attestation) : list N :=
    select (aggregation_bits a)
      (concat (map (spec_beacon_committee rounds indices spe cps (ad_slot (att_data a))) (set_positions (committee_bits a)))).
End Spec.
