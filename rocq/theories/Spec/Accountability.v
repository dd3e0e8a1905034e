(** C73: who can be slashed when proofs conflict, in the terms of the consensus specification. *)
From Coq Require Import List NArith Bool Sorted.
From Coq.Init Require Import Byte.
From Verif.Model Require Import Base Types ConsensusState GuestReader Guest Networks.
From Verif.Spec Require Import FFG Ssz Beacon Registry NetworkSpec Meaning ClientSpec Skipped.
Import ListNotations.
Open Scope N_scope.

(** is_slashable_attestation_data (phase0 beacon-chain.md): double vote or surround vote. *)
Definition is_slashable_attestation_data (d1 d2 : AttestationData) : Prop :=
  (d1 <> d2 /\ epoch (ad_target d1) = epoch (ad_target d2)) \/
  (epoch (ad_source d1) < epoch (ad_source d2) /\ epoch (ad_target d2) < epoch (ad_target d1)).
Record IndexedAttestation := mkIndexed { ia_indices : list N; ia_data : AttestationData; ia_signature : bytes }.
(** is_valid_indexed_attestation under the registry of [s] on network [n]. *)
Definition is_valid_indexed_attestation (X : Externals) (n : Network) (s : State) (a : IndexedAttestation) : Prop :=
  ia_indices a <> [] /\ StronglySorted N.lt (ia_indices a) /\
  exists keys, map (pk_serialize X) keys = map (key_at (st_validators s)) (ia_indices a) /\
    bls_verify X (ia_signature a)
      (attestation_signing_root (sha256 X) (ia_data a)
         (domain (sha256 X) 1 (if epoch (ad_target (ia_data a)) <? fulu_epoch n then electra_version n else fulu_version n)
            (st_genesis_validators_root s))) keys = true.
(** What process_attester_slashing asks of the two attestations (in either order) before it slashes the
    validators in both; the first is judged by the registry of [s], the second by that of [t]. *)
Definition attester_slashing (X : Externals) (n : Network) (s t : State) (a b : IndexedAttestation) : Prop :=
  (is_slashable_attestation_data (ia_data a) (ia_data b) \/ is_slashable_attestation_data (ia_data b) (ia_data a)) /\
  is_valid_indexed_attestation X n s a /\ is_valid_indexed_attestation X n t b.
(** Validator [i] is unslashed in both registries and there is evidence to slash it. *)
Definition guilty (X : Externals) (n : Network) (s t : State) (i : N) : Prop :=
  is_slashed (st_validators s) i = false /\ is_slashed (st_validators t) i = false /\
  exists a b, attester_slashing X n s t a b /\ In i (ia_indices a) /\ In i (ia_indices b).

(** Sums over lists of indices, and how much more the validators [l] weigh in the registry [vs] than
    with the balances [b]. *)
Definition sum (b : N -> N) (l : list N) : N := fold_right (fun i t => b i + t) 0 l.
Definition drift (vs : list Validator) (b : N -> N) (l : list N) : N := sum (fun i => balance_at vs i - b i) l.

(** The block and state behind every root a client comes to trust: [world] knows them, the proofs in
    the inputs are about them without collision, the state is not newer than the checkpoint's epoch
    (older if slots were empty), and fewer than 2^21 validators are active. [state_of] is the state at
    the start of the checkpoint's epoch, up to ejections (Spec/Skipped.v), which is the block's state if that is of the
    epoch. *)
Definition trusted_of (p : Step) : Checkpoint := finalized (gi_consensus_state (sp_input p)).
Definition block_state (world : bytes -> Header * State) (p : Step) : State := snd (world (root (trusted_of p))).
Definition state_of (world : bytes -> Header * State) (p : Step) : State := state_at_start (block_state world p) (epoch (trusted_of p)).
Definition truthful (X : Externals) (world : bytes -> Header * State) (ps : list Step) : Prop :=
  Forall (fun p => committed X (sp_input p) (fst (world (root (trusted_of p)))) (block_state world p) /\
    st_slot (block_state world p) / 32 <= epoch (trusted_of p) /\
    epoch (st_finalized (block_state world p)) <= st_slot (block_state world p) / 32 /\
    forall e, epoch (trusted_of p) < e <= epoch (trusted_of p) + 4 ->
      N.of_nat (length (active_indices (st_validators (state_of world p)) e)) < 2 ^ 21) ps.
