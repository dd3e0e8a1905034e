(** Data types of core, and the parts of Lighthouse's [ChainSpec] that are used. *)
From Coq Require Import List NArith Bool.
From Verif.Model Require Import Base.
Import ListNotations.
Open Scope N_scope.

(** core/src/lib.rs:50-57. *)
Notation Epoch := N (only parsing).
Notation Slot := N (only parsing).
Notation Root := bytes (only parsing).
Notation Version := bytes (only parsing).
Notation ValidatorIndex := N (only parsing).
(** Raw (uncompressed) BLS key and signature bytes; only handed to the external BLS library. *)
Notation PublicKey := bytes (only parsing).
Notation Signature := bytes (only parsing).

(** core/src/lib.rs:104-142 [Checkpoint]. *)
Record Checkpoint := mkCheckpoint { epoch : Epoch; root : Root }.
Definition checkpoint_eqb (a b : Checkpoint) : bool :=
  (epoch a =? epoch b) && bytes_eqb (root a) (root b).
(** core/src/lib.rs:104 [derive(Default)]: epoch 0, zero root. *)
Definition checkpoint_default : Checkpoint := mkCheckpoint 0 (zero_bytes 32).
(** core/src/lib.rs:139-141 [Checkpoint::less_or_equal]. *)
Definition checkpoint_le (a b : Checkpoint) : bool :=
  (epoch a <? epoch b) || checkpoint_eqb a b.

(** core/src/lib.rs:194-198 [Link]. *)
Record Link := mkLink { source : Checkpoint; target : Checkpoint }.
Definition link_eqb (a b : Link) : bool :=
  checkpoint_eqb (source a) (source b) && checkpoint_eqb (target a) (target b).

(** core/src/lib.rs:62-70 [ValidatorInfo]. *)
Record ValidatorInfo := mkValidatorInfo {
  pubkey : PublicKey;
  effective_balance : N;
  slashed : bool;
  activation_eligibility_epoch : Epoch;
  activation_epoch : Epoch;
  exit_epoch : Epoch }.

(** Lighthouse [ForkName]; the order is the declaration order. *)
Inductive ForkName := BaseFork | Altair | Bellatrix | Capella | Deneb | Electra | Fulu | Gloas.
Definition fork_rank (f : ForkName) : N :=
  match f with
  | BaseFork => 0 | Altair => 1 | Bellatrix => 2 | Capella => 3
  | Deneb => 4 | Electra => 5 | Fulu => 6 | Gloas => 7
  end.
Definition fork_le (a b : ForkName) : bool := fork_rank a <=? fork_rank b.

(** Lighthouse [Fork]. *)
Record Fork := mkFork { previous_version : Version; current_version : Version; fork_epoch : Epoch }.
Definition fork_eqb (a b : Fork) : bool :=
  bytes_eqb (previous_version a) (previous_version b)
  && bytes_eqb (current_version a) (current_version b)
  && (fork_epoch a =? fork_epoch b).

(** Lighthouse [ChainSpec] (fields used) together with the [EthSpec] constants
    (slots_per_epoch, epochs_per_historical_vector). *)
Record ChainSpec := mkChainSpec {
  cs_fork_epoch : ForkName -> option Epoch;
  cs_fork_version : ForkName -> Version;
  far_future_epoch : Epoch;
  min_seed_lookahead : N;
  max_seed_lookahead : N;
  shuffle_round_count : N;
  effective_balance_increment : N;
  min_activation_balance : N;
  min_per_epoch_churn_limit_electra : N;
  churn_limit_quotient : N;
  max_committees_per_slot : N;
  target_committee_size : N;
  domain_beacon_attester : N;
  slots_per_epoch : N;
  epochs_per_historical_vector : N }.

(** Lighthouse [ChainSpec::fork_name_at_epoch]: newest scheduled fork not after [e]. *)
Definition forks_desc : list ForkName := [Gloas; Fulu; Electra; Deneb; Capella; Bellatrix; Altair].
Fixpoint fork_name_from (cs : ChainSpec) (l : list ForkName) (e : Epoch) : ForkName :=
  match l with
  | [] => BaseFork
  | f :: r => match cs_fork_epoch cs f with
              | Some fe => if fe <=? e then f else fork_name_from cs r e
              | None => fork_name_from cs r e
              end
  end.
Definition fork_name_at_epoch (cs : ChainSpec) (e : Epoch) : ForkName :=
  fork_name_from cs forks_desc e.

(** Lighthouse [ChainSpec::fork_at_epoch]. *)
Definition fork_at_epoch (cs : ChainSpec) (e : Epoch) : Fork :=
  let cur := fork_name_at_epoch cs e in
  let fe := match cur with BaseFork => 0 | _ => match cs_fork_epoch cs cur with Some x => x | None => 0 end end in
  let prev := if fe =? 0 then cur else fork_name_at_epoch cs (fe - 1) in
  mkFork (cs_fork_version cs prev) (cs_fork_version cs cur) fe.

(** Lighthouse [Slot::epoch]: panics on zero slots_per_epoch, which [EthSpec] excludes;
    simplification: [N] division by zero gives 0. *)
Definition epoch_of_slot (cs : ChainSpec) (s : Slot) : Epoch := s / slots_per_epoch cs.

(** Lighthouse [ChainSpec::compute_activation_exit_epoch]. *)
Definition compute_activation_exit_epoch {E} (f : ArithError -> E) (cs : ChainSpec) (e : Epoch)
  : outcome E Epoch :=
  x <- safe_add f e 1 ;; safe_add f x (max_seed_lookahead cs).

(** Lighthouse [AttestationData]. *)
Record AttestationData := mkAttestationData {
  ad_slot : Slot; ad_index : N; ad_beacon_block_root : Root;
  ad_source : Checkpoint; ad_target : Checkpoint }.

(** Lighthouse [Attestation]: [att_electra] distinguishes the Electra variant. *)
Record Attestation := mkAttestation {
  att_electra : bool;
  aggregation_bits : list bool;
  committee_bits : list bool;
  att_data : AttestationData;
  att_signature : Signature }.

(** core/src/state_patch.rs:24-28 [StatePatch]. *)
Record StatePatch := mkStatePatch {
  randao_mixes : bmap bytes;
  validator_exits : bmap Epoch }.
Definition EMPTY_STATE_PATCH : StatePatch := mkStatePatch [] [].

(** The external libraries used, as one parameter: SHA-256, compressed serialization of a public
    key, BLS [eth_fast_aggregate_verify], the swap-or-not [shuffle_list] and the width of [usize]
    (32 in the guest, 64 on the host). *)
Record Externals := mkExternals {
  sha256 : bytes -> bytes;
  pk_serialize : PublicKey -> bytes;
  bls_verify : Signature -> bytes -> list PublicKey -> bool;
  shuffle_list : list ValidatorIndex -> N -> bytes -> option (list ValidatorIndex);
  usize_bits : N }.

(** core/src/lib.rs:81-84. *)
Definition is_eligible_for_activation_queue (cs : ChainSpec) (v : ValidatorInfo) : bool :=
  (activation_eligibility_epoch v =? far_future_epoch cs)
  && (min_activation_balance cs <=? effective_balance v).
(** core/src/lib.rs:87-96. *)
Definition is_eligible_for_activation (cs : ChainSpec) (fin : Epoch) (v : ValidatorInfo) : bool :=
  (activation_eligibility_epoch v <=? fin) && (activation_epoch v =? far_future_epoch cs).
(** core/src/lib.rs:99-101. *)
Definition is_active_at (v : ValidatorInfo) (e : Epoch) : bool :=
  (activation_epoch v <=? e) && (e <? exit_epoch v).
(** core/src/state_patch.rs:43-53. *)
Definition patch_is_active_validator (p : StatePatch) (i : ValidatorIndex) (v : ValidatorInfo)
           (e : Epoch) : bool :=
  match bm_get (validator_exits p) i with
  | Some x => (e <? x) && is_active_at v e
  | None => is_active_at v e
  end.

(** core/src/config.rs:23-34 [Config]. *)
Record Config := mkConfig {
  min_version : ForkName;
  max_version : ForkName;
  epoch_lookahead_limit : Epoch;
  justification_threshold_factor : N;
  justification_threshold_quotient : N }.
(** core/src/config.rs:37-43 and 47-53. *)
Definition DEFAULT_CONFIG : Config := mkConfig Electra Fulu 4 85 100.
Definition SEPOLIA_CONFIG : Config := mkConfig Electra Fulu 4 70 100.
(** core/src/config.rs:56-58. *)
Definition is_supported_version (cfg : Config) (f : ForkName) : bool :=
  fork_le (min_version cfg) f && fork_le f (max_version cfg).
