(** C76: an input that tells the same story about another trusted block. *)
From Coq Require Import List NArith.
From Verif.Model Require Import Base Types ConsensusState Multiproof GuestReader.
Import ListNotations.
Open Scope N_scope.

(** The state [s], except that the root of its finalized block is [r]. *)
Definition about_block (s : ConsensusState) (r : Root) : ConsensusState :=
  mkCS (current_justified s) (mkCheckpoint (epoch (finalized s)) r).
(** The input [gi], except that it claims the trusted block to be the one with root [r], and that
    [mp] takes the place of the proof of the block's state root. The validators, their keys, the
    votes and everything else stay as they are. *)
Definition retold (gi : GuestInput) (r : Root) (mp : Multiproof) : GuestInput :=
  mkGuestInput mp (gi_beacon_state gi) (gi_active_validators gi) (gi_public_keys gi) (gi_patches gi)
    (about_block (gi_consensus_state gi) r) (gi_attestations gi) (gi_block_slot_proofs gi).
