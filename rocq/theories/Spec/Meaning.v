(** C69: what a committed journal says about the beacon chain, in the terms and with the constants of
    the consensus specification (phase0 and electra beacon-chain.md, mainnet preset). *)
From Coq Require Import List NArith Bool.
From Coq.Init Require Import Byte.
From Verif.Model Require Import Base Types Networks.
From Verif.Spec Require Import FFG Ssz Beacon NetworkSpec ShuffleSpec.
Import ListNotations.
Open Scope N_scope.

(** get_active_validator_indices. *)
Definition is_active (e : N) (v : Validator) : bool := (v_activation_epoch v <=? e) && (e <? v_exit_epoch v).
Definition active_indices (vs : list Validator) (e : N) : list N :=
  map fst (filter (fun iv => is_active e (snd iv)) (combine (map N.of_nat (seq 0 (length vs))) vs)).
(** get_committee_count_per_slot, for a number of active validators. *)
Definition committees_per_slot (active : N) : N := N.max 1 (N.min 64 (active / 32 / 128)).
(** get_total_balance, of a list of indices. *)
Definition balance_at (vs : list Validator) (i : N) : N :=
  match nth_error vs (N.to_nat i) with Some v => v_effective_balance v | None => 0 end.
Definition total_balance (vs : list Validator) (l : list N) : N :=
  N.max 1000000000 (fold_right (fun i t => balance_at vs i + t) 0 l).
Definition is_slashed (vs : list Validator) (i : N) : bool :=
  match nth_error vs (N.to_nat i) with Some v => v_slashed v | None => false end.
Definition key_at (vs : list Validator) (i : N) : bytes :=
  match nth_error vs (N.to_nat i) with Some v => v_pubkey v | None => [] end.
Definition mem (i : N) (l : list N) : bool := existsb (N.eqb i) l.

Section Meaning.
  Variable X : Externals.
  Let hash := sha256 X.

  (** get_attesting_indices, as a list in index order. The seed is get_seed for DOMAIN_BEACON_ATTESTER
      with the RANDAO mix [mix]. *)
  Definition attesting_indices (vs : list Validator) (mix : bytes) (a : Attestation) : list N :=
    let e := epoch (ad_target (att_data a)) in
    let active := active_indices vs e in
    let seed := hash ([x01; x00; x00; x00] ++ le_bytes 8 e ++ mix) in
    filter (fun i => mem i (spec_attesters hash seed 90 active 32 (committees_per_slot (N.of_nat (length active))) a)) active.
  (** is_valid_indexed_attestation for the votes [a] casts for the link [l] on network [n]: somebody
      voted, the data is consistent, and the signature is that of the keys registered for the
      attesting indices over the data in the domain of the network and fork. *)
  Definition vote_valid (n : Network) (s : State) (mix : bytes) (l : Link) (a : Attestation) : Prop :=
    let d := att_data a in
    att_electra a = true /\ ad_source d = source l /\ ad_target d = target l /\
    ad_slot d / 32 = epoch (target l) /\ ad_index d = 0 /\
    attesting_indices (st_validators s) mix a <> [] /\
    exists keys, map (pk_serialize X) keys = map (key_at (st_validators s)) (attesting_indices (st_validators s) mix a) /\
      bls_verify X (att_signature a)
        (attestation_signing_root hash d
           (domain hash 1 (if epoch (target l) <? fulu_epoch n then electra_version n else fulu_version n)
              (st_genesis_validators_root s))) keys = true.
  (** The unslashed validators that vote for the link in one of the aggregates [g]. *)
  Definition voters (vs : list Validator) (mix : bytes) (e : N) (g : list Attestation) : list N :=
    filter (fun i => existsb (fun a => mem i (attesting_indices vs mix a)) g && negb (is_slashed vs i)) (active_indices vs e).
  (** The state [s] of network [n] sees the link [l] justified by the aggregates [g]: all are valid and
      the share of the active balance behind them reaches the network's threshold. *)
  Definition justified_by (n : Network) (s : State) (mix : bytes) (l : Link) (g : list Attestation) : Prop :=
    let vs := st_validators s in
    let e := epoch (target l) in
    Forall (vote_valid n s mix l) g /\
    percent n * total_balance vs (active_indices vs e) <= 100 * total_balance vs (voters vs mix e g).
End Meaning.
