(** The blocks of the consensus specification (mainnet preset) and the beacon API's answers for them. *)
From Coq Require Import String List NArith.
From Coq.Init Require Import Byte.
From Verif.Model Require Import Base Types StateFile StateJson.
From Verif.Spec Require Import StateJsonSpec.
Import ListNotations.
Open Scope list_scope.
Open Scope N_scope.

Open Scope string_scope.
Definition BLSSignature := ByteVector 96.
Definition ExecutionAddress := ByteVector 20.
Definition Signed (k : kind) := Container [("message", k); ("signature", BLSSignature)].
Definition ProposerSlashing := Container [("signed_header_1", Signed BeaconBlockHeader); ("signed_header_2", Signed BeaconBlockHeader)].
Definition IndexedAttestation (limit : N) := Container
  [("attesting_indices", List_ uint64 limit); ("data", AttestationData_); ("signature", BLSSignature)].
Definition AttesterSlashing (limit : N) := Container
  [("attestation_1", IndexedAttestation limit); ("attestation_2", IndexedAttestation limit)].
(** MAX_VALIDATORS_PER_COMMITTEE, and from Electra on the committees of a slot together. *)
Definition Attestation_ := Container [("aggregation_bits", Bitlist 2048); ("data", AttestationData_); ("signature", BLSSignature)].
Definition ElectraAttestation := Container
  [("aggregation_bits", Bitlist (64 * 2048)); ("data", AttestationData_); ("signature", BLSSignature); ("committee_bits", Bitvector 64)].
Definition DepositData := Container
  [("pubkey", BLSPubkey); ("withdrawal_credentials", Bytes32); ("amount", uint64); ("signature", BLSSignature)].
Definition Deposit := Container [("proof", Vector Bytes32 33); ("data", DepositData)].
Definition VoluntaryExit := Container [("epoch", uint64); ("validator_index", uint64)].
Definition SyncAggregate := Container [("sync_committee_bits", Bitvector 512); ("sync_committee_signature", BLSSignature)].
Definition Withdrawal := Container [("index", uint64); ("validator_index", uint64); ("address", ExecutionAddress); ("amount", uint64)].
Definition BLSToExecutionChange := Container
  [("validator_index", uint64); ("from_bls_pubkey", BLSPubkey); ("to_execution_address", ExecutionAddress)].
Definition DepositRequest := Container
  [("pubkey", BLSPubkey); ("withdrawal_credentials", Bytes32); ("amount", uint64); ("signature", BLSSignature); ("index", uint64)].
Definition WithdrawalRequest := Container [("source_address", ExecutionAddress); ("validator_pubkey", BLSPubkey); ("amount", uint64)].
Definition ConsolidationRequest := Container
  [("source_address", ExecutionAddress); ("source_pubkey", BLSPubkey); ("target_pubkey", BLSPubkey)].
Definition ExecutionRequests := Container
  [("deposits", List_ DepositRequest 8192); ("withdrawals", List_ WithdrawalRequest 16); ("consolidations", List_ ConsolidationRequest 2)].
Definition payload (v : version) : list (string * kind) :=
  ([("parent_hash", Bytes32); ("fee_recipient", ExecutionAddress); ("state_root", Bytes32); ("receipts_root", Bytes32);
    ("logs_bloom", ByteVector 256); ("prev_randao", Bytes32); ("block_number", uint64); ("gas_limit", uint64);
    ("gas_used", uint64); ("timestamp", uint64); ("extra_data", ByteList 32); ("base_fee_per_gas", Uint 32);
    ("block_hash", Bytes32); ("transactions", List_ (ByteList (2 ^ 30)) (2 ^ 20))]
   ++ since VCapella v [("withdrawals", List_ Withdrawal 16)]
   ++ since VDeneb v [("blob_gas_used", uint64); ("excess_blob_gas", uint64)])%list.
(** From Electra on there are fewer but larger attestations. *)
Definition slashings (v : version) : kind :=
  if (number v <? number VElectra)%N then List_ (AttesterSlashing 2048) 2 else List_ (AttesterSlashing (64 * 2048)) 1.
Definition attestations (v : version) : kind :=
  if (number v <? number VElectra)%N then List_ Attestation_ 128 else List_ ElectraAttestation 8.
(** BeaconBlockBody *)
Definition body_fields (v : version) : list (string * kind) :=
  ([("randao_reveal", BLSSignature); ("eth1_data", Eth1Data); ("graffiti", Bytes32);
    ("proposer_slashings", List_ ProposerSlashing 16); ("attester_slashings", slashings v); ("attestations", attestations v);
    ("deposits", List_ Deposit 16); ("voluntary_exits", List_ (Signed VoluntaryExit) 16)]
   ++ since VAltair v [("sync_aggregate", SyncAggregate)]
   ++ since VBellatrix v [("execution_payload", Container (payload v))]
   ++ since VCapella v [("bls_to_execution_changes", List_ (Signed BLSToExecutionChange) 16)]
   ++ since VDeneb v [("blob_kzg_commitments", List_ (ByteVector 48) 4096)]
   ++ since VElectra v [("execution_requests", ExecutionRequests)])%list.
Definition BeaconBlock (v : version) : kind := Container
  [("slot", uint64); ("proposer_index", uint64); ("parent_root", Bytes32); ("state_root", Bytes32); ("body", Container (body_fields v))].
(** What a version has and the one before it has not. *)
Definition block_additions (v : version) : list (list string) :=
  match v with
  | VPhase0 => []
  | VAltair => [["body"; "sync_aggregate"]]
  | VBellatrix => [["body"; "execution_payload"]]
  | VCapella => [["body"; "execution_payload"; "withdrawals"]; ["body"; "bls_to_execution_changes"]]
  | VDeneb => [["body"; "execution_payload"; "blob_gas_used"]; ["body"; "execution_payload"; "excess_blob_gas"]; ["body"; "blob_kzg_commitments"]]
  | VElectra => [["body"; "execution_requests"]]
  | VFulu => []
  end.
Definition block_not_newer (v : version) (j : json) : Prop :=
  match next_version v with
  | None | Some VFulu => True
  | Some v' => exists path, In path (block_additions v') /\ lacks path j
  end.
(** The beacon API's answer: version, finality and so on in [more], the block and its signature in the data,
    again with further members. *)
Definition block_answer (block : json) (signature : json) (more more' : list (string * json)) : json :=
  answer (JObj (("message", block) :: ("signature", signature) :: more')) more.
(** An attestation as a value of [ElectraAttestation]. *)
Definition checkpoint_value (c : Checkpoint) : val := VSeq [VNum (epoch c); VBytes (root c)].
Definition data_value (d : AttestationData) : val :=
  VSeq [VNum (ad_slot d); VNum (ad_index d); VBytes (ad_beacon_block_root d); checkpoint_value (ad_source d); checkpoint_value (ad_target d)].
Definition attestation_value (a : Attestation) : val :=
  VSeq [VBits (aggregation_bits a); data_value (att_data a); VBytes (att_signature a); VBits (committee_bits a)].
