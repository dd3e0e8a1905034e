(** What the host's guest inputs are expected to contain, in terms of the beacon states. *)
From Coq Require Import List NArith Bool Sorted.
From Verif.Model Require Import Base Types ConsensusState Verify GuestReader HostChain HostStore HostInput.
From Verif.Spec Require Import Merkle Beacon GuestSpec Committees VerifySpec.
Import ListNotations.
Open Scope N_scope.

(** [pk_deserialize] gives keys that serialize back to the same bytes. *)
Definition decodes (X : Externals) (pk_deserialize : bytes -> option PublicKey) : Prop :=
  forall b pk, pk_deserialize b = Some pk -> pk_serialize X pk = b.

(** [vi] is the record of the registry entry [v]. *)
Definition record_of (v : Validator) (pk : PublicKey) : ValidatorInfo :=
  mkValidatorInfo pk (v_effective_balance v) (v_slashed v) (v_activation_eligibility_epoch v)
    (v_activation_epoch v) (v_exit_epoch v).

(** [m] holds, under their index, exactly the validators of [vs] that have not exited at [cur],
    with keys related to them by [K]. *)
Definition exact_registry (K : Validator -> PublicKey -> Prop) (vs : list Validator) (cur : Epoch) (m : bmap ValidatorInfo) : Prop :=
  StronglySorted N.lt (map fst m) /\
  forall i, match nth_error vs (N.to_nat i), bm_get m i with
            | Some v, Some vi => cur < v_exit_epoch v /\ exists pk, K v pk /\ vi = record_of v pk
            | Some v, None => v_exit_epoch v <= cur
            | None, Some _ => False
            | None, None => True
            end.

(** [ex] lists the validators present in both registries whose exit epochs differ, with the exit
    epoch of the later registry. *)
Definition exit_changes (later trusted : list Validator) (ex : bmap Epoch) : Prop :=
  StronglySorted N.lt (map fst ex) /\
  forall i, bm_get ex i =
    match nth_error later (N.to_nat i), nth_error trusted (N.to_nat i) with
    | Some a, Some b => if v_exit_epoch a =? v_exit_epoch b then None else Some (v_exit_epoch a)
    | _, _ => None
    end.
(** [m] holds the mixes with the given indices. *)
Definition mixes_read (mixes : list bytes) (idxs : list N) (m : bmap bytes) : Prop :=
  StronglySorted N.lt (map fst m) /\
  forall i, bm_get m i = if existsb (N.eqb i) idxs then nth_error mixes (N.to_nat i) else None.

(** The same external functions on a platform with another [usize]. *)
Definition on_platform (X : Externals) (bits : N) : Externals :=
  mkExternals (sha256 X) (pk_serialize X) (bls_verify X) (shuffle_list X) bits.

(** The keys of the validators that have not exited at [cur] can be decoded. *)
Definition keys_decode (pk_deserialize : bytes -> option PublicKey) (vs : list Validator) (cur : Epoch) : Prop :=
  forall v, In v vs -> cur < v_exit_epoch v -> exists pk, pk_deserialize (v_pubkey v) = Some pk.
(** Total balances fit into 64 bits. *)
Definition all_balances (vs : list Validator) : N := fold_right (fun v t => v_effective_balance v + t) 0 vs.
Definition balances_fit (cs : ChainSpec) (vs : list Validator) : Prop :=
  churn_limit_quotient cs <> 0 /\ effective_balance_increment cs <> 0 /\
  2 * N.max (min_per_epoch_churn_limit_electra cs) (N.max (effective_balance_increment cs) (all_balances vs)) < 2 ^ 64.

(** [l] lists, in index order, the validators of [vs] active at [e], with their decoded keys, balances
    and slashing status. *)
Definition voter_of (pk_deserialize : bytes -> option PublicKey) (v : Validator) (vi : ValidatorInfo) : Prop :=
  pk_deserialize (v_pubkey v) = Some (pubkey vi) /\ effective_balance vi = v_effective_balance v /\ slashed vi = v_slashed v.
Definition voters_at (pk_deserialize : bytes -> option PublicKey) (vs : list Validator) (e : Epoch)
           (l : list (ValidatorIndex * ValidatorInfo)) : Prop :=
  StronglySorted N.lt (map fst l) /\
  forall i, match nth_error vs (N.to_nat i) with
            | Some v => if (v_activation_epoch v <=? e) && (e <? v_exit_epoch v)
                        then exists vi, bm_get l i = Some vi /\ voter_of pk_deserialize v vi
                        else bm_get l i = None
            | None => bm_get l i = None
            end.

(** The keys that [active] holds are those of the entries of [vs] with the same index. *)
Definition keys_match (pk_deserialize : bytes -> option PublicKey) (vs : list Validator)
           (active : list (ValidatorIndex * ValidatorInfo)) : Prop :=
  forall i v vi, nth_error vs (N.to_nat i) = Some v -> In (i, vi) active -> pk_deserialize (v_pubkey v) = Some (pubkey vi).

(** The host works on well-formed data: the trusted state [st] follows the fork schedule and its keys
    are decodable, and so on. *)
Record sound_data (X : Externals) (cs : ChainSpec) (pk_deserialize : bytes -> option PublicKey)
       (headers : Root -> outcome N (option Header)) (trusted : Checkpoint) (st : HState) (blocks : list Root) : Prop := {
  sd_hash : hash32 (sha256 X);
  sd_keys : pk48 X;
  sd_decodes : decodes X pk_deserialize;
  sd_state : wf_state (hs_state st);
  sd_header : wf_header (hs_header st);
  sd_decodable : keys_decode pk_deserialize (st_validators (hs_state st)) (epoch trusted);
  sd_fork : st_fork (hs_state st) = fork_at_epoch cs (st_slot (hs_state st) / slots_per_epoch cs);
  sd_blocks : forall r h, In r blocks -> headers r = Ok (Some h) -> wf_header h }.

(** What the provider returns for a checkpoint: the state of the last block at or before the epoch
    boundary, if that block is the checkpoint's. *)
Definition checkpoint_state (X : Externals) (cs : ChainSpec) (states : Slot -> answer HState) (c : Checkpoint) : answer HState :=
  state_at_checkpoint (fun s => st_slot (hs_state s)) (fun s => hd_slot (hs_header s)) (boundary_root X) states cs c.

(** Epochs of the attestations' targets. *)
Definition target_epochs (atts : list Attestation) : list Epoch := map (fun a => epoch (ad_target (att_data a))) atts.

(** A reader [R'] that answers from the trusted state [st], the states at the start of the target
    epochs, the fork schedule and the block headers. *)
Record answers_faithfully (cs : ChainSpec) (pk_deserialize : bytes -> option PublicKey) (states : Slot -> answer HState)
       (headers : Root -> outcome N (option Header)) (trusted : Checkpoint) (st : HState) (cst : ConsensusState)
       (atts : list Attestation) (last_block : Root) (R' : Reader) : Prop := {
  af_spec : rd_chain_spec R' = cs;
  af_consensus : rd_consensus_state R' = Ok cst;
  af_attestations : rd_attestations R' = Ok atts;
  af_genesis : rd_genesis_validators_root R' = Ok (st_genesis_validators_root (hs_state st));
  af_fork : forall e, rd_fork R' e = Ok (fork_at_epoch cs e);
  af_active : forall e, epoch trusted <= e <= epoch trusted + max_seed_lookahead cs ->
    e <= st_slot (hs_state st) / slots_per_epoch cs + max_seed_lookahead cs ->
    exists l, rd_active_validators R' e = Ok l /\ voters_at pk_deserialize (st_validators (hs_state st)) e l;
  af_mix : forall e, In e (target_epochs atts) -> exists st' mix,
    states (start_slot cs e) = Ok st' /\
    nth_error (hs_randao_mixes st') (N.to_nat (seed_epoch_index cs e)) = Some mix /\
    rd_randao_mix R' e (seed_epoch_index cs e) = Ok (Some mix);
  af_slot : exists h, headers last_block = Ok (Some h) /\ rd_slot_for_block R' last_block = Ok (hd_slot h) }.

(** What a registry says about validator [i] as a voter at epoch [e]. *)
Definition voting_entry (vs : list Validator) (e : Epoch) (i : ValidatorIndex) : option (bytes * N * bool) :=
  match nth_error vs (N.to_nat i) with
  | Some v => if (v_activation_epoch v <=? e) && (e <? v_exit_epoch v)
              then Some (v_pubkey v, v_effective_balance v, v_slashed v) else None
  | None => None
  end.
(** The states at the target epochs agree with the trusted state [st] on the voters of these epochs,
    the targets are within the lookahead, and the constants of the chain do not change. *)
Record steady_chain (cs : ChainSpec) (states : Slot -> answer HState) (trusted : Checkpoint) (st : HState)
       (atts : list Attestation) : Prop := {
  sc_genesis : forall s st', states s = Ok st' -> st_genesis_validators_root (hs_state st') = st_genesis_validators_root (hs_state st);
  sc_keys : forall st' i v v', states (start_slot cs (epoch trusted)) = Ok st' ->
    nth_error (st_validators (hs_state st)) i = Some v -> nth_error (st_validators (hs_state st')) i = Some v' ->
    v_pubkey v = v_pubkey v';
  sc_epochs : forall e, In e (target_epochs atts) ->
    e <= epoch trusted + max_seed_lookahead cs /\ e <= st_slot (hs_state st) / slots_per_epoch cs + max_seed_lookahead cs;
  sc_fork : forall e st', In e (target_epochs atts) -> states (start_slot cs e) = Ok st' -> st_fork (hs_state st') = fork_at_epoch cs e;
  sc_voters : forall e st' i, In e (target_epochs atts) -> states (start_slot cs e) = Ok st' ->
    voting_entry (st_validators (hs_state st')) e i = voting_entry (st_validators (hs_state st)) e i }.
(** The indices of the registry fit into a [usize], and the committee arithmetic does not overflow for
    the number of validators that are active at one of the epochs [es]. *)
Definition active_count (vs : list Validator) (e : Epoch) : N :=
  N.of_nat (length (filter (fun v => (v_activation_epoch v <=? e) && (e <? v_exit_epoch v)) vs)).
Definition registry_fits (X : Externals) (cs : ChainSpec) (vs : list Validator) (es : list Epoch) : Prop :=
  N.of_nat (length vs) < 2 ^ usize_bits X /\
  forall e, In e es -> fits_platform X (slots_per_epoch cs) (committee_count cs (active_count vs e)) (active_count vs e).
