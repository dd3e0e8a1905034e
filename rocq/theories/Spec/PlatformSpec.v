(** The guest runs on a platform with 32-bit machine words, the host on one with 64-bit words. *)
From Coq Require Import List NArith.
From Verif.Model Require Import Base Types Shuffle ConsensusState Verify.
From Verif.Spec Require Import HostInputSpec.
Import ListNotations.
Open Scope N_scope.

(** At every target epoch of the attestations, the data source names fewer than 2^21 active validators, all of
    them with an index below 2^32 - 1. (Mainnet has about 2^20.) *)
Definition small_registry (R : Reader) : Prop :=
  forall atts a validators, rd_attestations R = Ok atts -> In a atts ->
    rd_active_validators R (epoch (ad_target (att_data a))) = Ok validators ->
    N.of_nat (length validators) < 2 ^ 21 /\ forall i v, In (i, v) validators -> i < 2 ^ 32 - 1.

(** [X0] on a 64-bit host; the guest is compiled for 32 bits. Each has its own copy of the shuffle. *)
Definition host_side (X0 : Externals) : Externals := with_swap_or_not (on_platform X0 64) 64.
Definition guest_side (X0 : Externals) : Externals := with_swap_or_not (on_platform X0 32) 64.
