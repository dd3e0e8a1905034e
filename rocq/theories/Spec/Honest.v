(** C70: what an honest beacon node serves, in the terms of the types of its answers and of the
    consensus specification. *)
From Coq Require Import List NArith Bool.
From Coq.Init Require Import Byte.
From Verif.Model Require Import Base Types ConsensusState StateFile GuestReader HostChain HostStore HostInput InputCodec Networks.
From Verif.Spec Require Import FFG Ssz Beacon Committees GuestSpec VerifySpec HostInputSpec InputCodecSpec NetworkSpec ShuffleSpec Meaning.
Import ListNotations.
Open Scope N_scope.

(** Keys with the same 48 bytes verify the same signatures. *)
Definition signatures_by_bytes (X : Externals) : Prop := forall sig m ks ks',
  map (pk_serialize X) ks = map (pk_serialize X) ks' -> bls_verify X sig m ks = bls_verify X sig m ks'.

(** The answers behind an input are values of their types: decoded keys survive their 96-byte form,
    RANDAO mixes have 32 bytes, exit epochs 64 bits, the attestations are values of Lighthouse's type. *)
Record typed_answers (C : Codec) (cs : ChainSpec) (pk_deserialize : bytes -> option PublicKey)
       (states : Slot -> answer HState) (atts : list Attestation) : Prop := {
  ta_keys : forall b k, pk_deserialize b = Some k -> wf_key C k;
  ta_mixes : forall e st m, In e (target_epochs atts) -> states (start_slot cs e) = Ok st -> In m (hs_randao_mixes st) -> b32 m;
  ta_exits : forall e st v, In e (target_epochs atts) -> states (start_slot cs e) = Ok st -> In v (st_validators (hs_state st)) ->
    u64 (v_exit_epoch v);
  ta_attestations : Forall (wf_attestation C) atts }.

(** The limits of the mainnet preset (electra/beacon-chain.md): MAX_VALIDATORS_PER_COMMITTEE, their
    number in all committees of a slot, and MAX_COMMITTEES_PER_SLOT. *)
Definition mainnet_limits (C : Codec) : Prop := max_per_committee C = 2048 /\ max_per_slot C = 131072 /\ max_committees C = 64.
(** The number of exits in all patches of an input. *)
Definition exit_count (gi : GuestInput) : N := N.of_nat (length (flat_map (fun p => validator_exits (snd p)) (gi_patches gi))).

(** What process_attestation (Electra) checks about an aggregate's bit fields before it is included
    in a block: the selected committees exist, the aggregation bits are divided among exactly these
    committees, and each has a participant. *)
Definition includable (X : Externals) (vs : list Validator) (mix : bytes) (a : Attestation) : Prop :=
  let e := epoch (ad_target (att_data a)) in
  let active := active_indices vs e in
  let seed := sha256 X ([x01; x00; x00; x00] ++ le_bytes 8 e ++ mix) in
  let count := committees_per_slot (N.of_nat (length active)) in
  Forall (fun i => i < count) (set_positions (committee_bits a)) /\
  exists parts,
    split_bits (aggregation_bits a)
      (map (spec_beacon_committee (sha256 X) seed 90 active 32 count (ad_slot (att_data a))) (set_positions (committee_bits a))) parts /\
    Forall (fun p => In true p) parts.

(** On network [n] the aggregates [g] vote for the link [l], and the state [st'] at the start of the
    target epoch sees the link justified by them: at least 85 percent of the active balance (Sepolia:
    70) is behind it. *)
Record honest_votes (n : Network) (X : Externals) (pk_deserialize : bytes -> option PublicKey)
       (states : Slot -> answer HState) (trusted : Checkpoint) (st : HState) (l : Link) (g : list Attestation) : Prop := {
  hv_some : g <> [];
  hv_epoch : electra_epoch n <= epoch (target l) <= epoch trusted + 4;
  hv_state : exists st' mix,
    states (32 * epoch (target l)) = Ok st' /\
    st_genesis_validators_root (hs_state st') = st_genesis_validators_root (hs_state st) /\
    keys_decode pk_deserialize (st_validators (hs_state st')) (epoch (target l)) /\
    nth_error (hs_randao_mixes st') (N.to_nat ((epoch (target l) + 65534) mod 65536)) = Some mix /\
    (* sizes: validators, and balances in Gwei *)
    N.of_nat (length (st_validators (hs_state st'))) < 2 ^ 32 /\
    N.of_nat (length (active_indices (st_validators (hs_state st')) (epoch (target l)))) < 2 ^ 21 /\
    all_balances (st_validators (hs_state st')) < 2 ^ 62 /\
    justified_by X n (hs_state st') mix l g /\
    Forall (includable X (st_validators (hs_state st')) mix) g }.
