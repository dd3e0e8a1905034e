(** What the guest's inputs are expected to say about the chain, independently of how the guest
    reads them. *)
From Coq Require Import List NArith Bool Sorting.Sorted.
From Verif.Model Require Import Base Types Multiproof Verify.
From Verif.Spec Require Import Merkle MultiproofSpec Ssz Beacon.
Import ListNotations.
Open Scope N_scope.

(** The proof tree has fewer than 64 levels, and no two different messages hashed in it or in the
    tree [T] it is checked against have the same hash. *)
Definition checkable (H : bytes -> bytes) (T : mtree) (mp : Multiproof) : Prop :=
  exists t, encodes mp t /\ (depth t < 64)%nat /\ injective_on H (hash_inputs H T ++ hash_inputs H t).

(** Compressed BLS public keys have 48 bytes. *)
Definition pk48 (X : Externals) : Prop := forall pk, List.length (pk_serialize X pk) = 48%nat.

(** [vi] is what the registry says about [v]. *)
Definition same_validator (X : Externals) (v : Validator) (vi : ValidatorInfo) : Prop :=
  pk_serialize X (pubkey vi) = v_pubkey v /\ effective_balance vi = v_effective_balance v /\
  slashed vi = v_slashed v /\ activation_eligibility_epoch vi = v_activation_eligibility_epoch v /\
  activation_epoch vi = v_activation_epoch v /\ exit_epoch vi = v_exit_epoch v.

(** [m] holds, under their registry index, the validators of [vs], except that some of those that
    have exited by epoch [cur] may be missing. *)
Definition faithful_registry (X : Externals) (vs : list Validator) (cur : Epoch) (m : bmap ValidatorInfo) : Prop :=
  StronglySorted N.lt (map fst m) /\
  forall i, match nth_error vs (N.to_nat i), bm_get m i with
            | Some v, Some vi => same_validator X v vi
            | Some v, None => v_exit_epoch v <= cur
            | None, Some _ => False
            | None, None => True
            end.
