(** The votes a verification is given, apart from everything else it reads. *)
From Coq Require Import List NArith.
From Verif.Model Require Import Base Types ConsensusState Verify.
From Verif.Spec Require Import VerifySpec.
Import ListNotations.
Open Scope N_scope.

(** The same source of data with other attestations. *)
Definition with_attestations (R : Reader) (atts : list Attestation) : Reader :=
  mkReader (rd_chain_spec R) (rd_genesis_validators_root R) (rd_fork R) (rd_active_validators R)
    (rd_randao_mix R) (Ok atts) (rd_consensus_state R) (rd_slot_for_block R).

(** [ls] are the links voted for, in the order of the attestations; attestations for the same link
    that follow each other count once. *)
Definition links_in_order (atts : list Attestation) (ls : list Link) : Prop :=
  exists gs, groups atts gs /\ map fst gs = ls.
