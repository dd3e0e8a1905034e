(** How a beacon node writes a state as JSON: the container types of the consensus specification and
    the JSON mapping of the beacon API (integers as decimal strings, bytes in hexadecimal, bits as the
    bytes of their SSZ encoding (Spec/InputFormat.v), containers as objects). *)
From Coq Require Import String List NArith.
From Coq.Init Require Import Byte.
From Verif.Model Require Import Base HostStore BeaconClient StateFile StateJson.
From Verif.Spec Require InputFormat.
Import ListNotations.
Open Scope list_scope.
Open Scope N_scope.

(** ** The JSON mapping *)
Inductive kind :=
| Uint (bytes : nat)
| Boolean
| ByteVector (n : N)
| ByteList (limit : N)
| Vector (k : kind) (n : N)
| List_ (k : kind) (limit : N)
| Container (fields : list (string * kind))
| Bitvector (n : N)
| Bitlist (limit : N).

(** Decimal digits and their value, most significant first. *)
Definition is_decimal (s : bytes) : Prop := s <> [] /\ Forall (fun c => 48 <= Byte.to_N c <= 57) s.
Definition decimal_value (s : bytes) : N := fold_left (fun acc c => 10 * acc + (Byte.to_N c - 48)) s 0.
(** A hexadecimal digit and its value. *)
Definition hex_is (c : byte) (n : N) : Prop :=
  (n < 10 /\ Byte.to_N c = 48 + n) \/ (10 <= n < 16 /\ (Byte.to_N c = 87 + n \/ Byte.to_N c = 55 + n)).
Fixpoint hex_digits (b s : bytes) : Prop :=
  match b, s with
  | [], [] => True
  | x :: b', h :: l :: s' => hex_is h (Byte.to_N x / 16) /\ hex_is l (Byte.to_N x mod 16) /\ hex_digits b' s'
  | _, _ => False
  end.
Definition hex_string (b s : bytes) : Prop := exists d, s = x30 :: x78 :: d /\ hex_digits b d.

(** [shows k v j]: the JSON text [j] is a way to write the value [v] of type [k]. An object may have
    its members in any order, and further members; names are not repeated. *)
Fixpoint shows (k : kind) (v : val) (j : json) : Prop :=
  match k with
  | Uint n => exists x s, v = VNum x /\ j = JStr s /\ is_decimal s /\ decimal_value s = x /\ x < 2 ^ (8 * N.of_nat n)
  | Boolean => exists b, v = VBool b /\ j = JBool b
  | ByteVector n => exists b s, v = VBytes b /\ j = JStr s /\ hex_string b s /\ N.of_nat (length b) = n
  | ByteList n => exists b s, v = VBytes b /\ j = JStr s /\ hex_string b s /\ N.of_nat (length b) <= n
  | Vector k' n => exists vs js, v = VSeq vs /\ j = JArr js /\ N.of_nat (length vs) = n /\ Forall2 (shows k') vs js
  | List_ k' n => exists vs js, v = VSeq vs /\ j = JArr js /\ N.of_nat (length vs) <= n /\ Forall2 (shows k') vs js
  | Container fs =>
      exists vs m, v = VSeq vs /\ j = JObj m /\ NoDup (map fst m) /\
        (fix each (fs : list (string * kind)) (vs : list val) : Prop :=
           match fs, vs with
           | [], [] => True
           | (name, k') :: fs', x :: vs' => (exists j', In (name, j') m /\ shows k' x j') /\ each fs' vs'
           | _, _ => False
           end) fs vs
  | Bitvector n => exists l b s, v = VBits l /\ j = JStr s /\ hex_string b s /\ InputFormat.bitfield_format n l b
  | Bitlist n => exists l b s, v = VBits l /\ j = JStr s /\ hex_string b s /\ InputFormat.bitlist_format n l b
  end.

(** ** The containers of the consensus specification *)
Open Scope string_scope.
Definition uint64 := Uint 8.
Definition Bytes32 := ByteVector 32.
Definition BLSPubkey := ByteVector 48.
Definition Fork_ := Container [("previous_version", ByteVector 4); ("current_version", ByteVector 4); ("epoch", uint64)].
Definition Checkpoint_ := Container [("epoch", uint64); ("root", Bytes32)].
Definition BeaconBlockHeader := Container
  [("slot", uint64); ("proposer_index", uint64); ("parent_root", Bytes32); ("state_root", Bytes32); ("body_root", Bytes32)].
Definition Eth1Data := Container [("deposit_root", Bytes32); ("deposit_count", uint64); ("block_hash", Bytes32)].
Definition Validator_ := Container
  [("pubkey", BLSPubkey); ("withdrawal_credentials", Bytes32); ("effective_balance", uint64); ("slashed", Boolean);
   ("activation_eligibility_epoch", uint64); ("activation_epoch", uint64); ("exit_epoch", uint64); ("withdrawable_epoch", uint64)].
Definition AttestationData_ := Container
  [("slot", uint64); ("index", uint64); ("beacon_block_root", Bytes32); ("source", Checkpoint_); ("target", Checkpoint_)].
Definition PendingAttestation := Container
  [("aggregation_bits", Bitlist 2048); ("data", AttestationData_); ("inclusion_delay", uint64); ("proposer_index", uint64)].
Definition SyncCommittee := Container [("pubkeys", Vector BLSPubkey 512); ("aggregate_pubkey", BLSPubkey)].
Definition HistoricalSummary := Container [("block_summary_root", Bytes32); ("state_summary_root", Bytes32)].
Definition PendingDeposit := Container
  [("pubkey", BLSPubkey); ("withdrawal_credentials", Bytes32); ("amount", uint64); ("signature", ByteVector 96); ("slot", uint64)].
Definition PendingPartialWithdrawal := Container [("validator_index", uint64); ("amount", uint64); ("withdrawable_epoch", uint64)].
Definition PendingConsolidation := Container [("source_index", uint64); ("target_index", uint64)].
Definition payload_header (v : version) : list (string * kind) :=
  ([("parent_hash", Bytes32); ("fee_recipient", ByteVector 20); ("state_root", Bytes32); ("receipts_root", Bytes32);
    ("logs_bloom", ByteVector 256); ("prev_randao", Bytes32); ("block_number", uint64); ("gas_limit", uint64);
    ("gas_used", uint64); ("timestamp", uint64); ("extra_data", ByteList 32); ("base_fee_per_gas", Uint 32);
    ("block_hash", Bytes32); ("transactions_root", Bytes32)]
   ++ match v with
      | VPhase0 | VAltair | VBellatrix => []
      | VCapella => [("withdrawals_root", Bytes32)]
      | _ => [("withdrawals_root", Bytes32); ("blob_gas_used", uint64); ("excess_blob_gas", uint64)]
      end)%list.
(** From which version on. *)
Definition number (v : version) : N :=
  match v with VPhase0 => 0 | VAltair => 1 | VBellatrix => 2 | VCapella => 3 | VDeneb => 4 | VElectra => 5 | VFulu => 6 end.
Definition since (from v : version) (l : list (string * kind)) : list (string * kind) := if (number from <=? number v)%N then l else [].
Definition registry (k : kind) := List_ k (2 ^ 40).
(** BeaconState, with the mainnet preset. *)
Definition state_fields (v : version) : list (string * kind) :=
  ([("genesis_time", uint64); ("genesis_validators_root", Bytes32); ("slot", uint64); ("fork", Fork_);
    ("latest_block_header", BeaconBlockHeader); ("block_roots", Vector Bytes32 8192); ("state_roots", Vector Bytes32 8192);
    ("historical_roots", List_ Bytes32 (2 ^ 24)); ("eth1_data", Eth1Data); ("eth1_data_votes", List_ Eth1Data 2048);
    ("eth1_deposit_index", uint64); ("validators", registry Validator_); ("balances", registry uint64);
    ("randao_mixes", Vector Bytes32 65536); ("slashings", Vector uint64 8192)]
   ++ match v with
      | VPhase0 => [("previous_epoch_attestations", List_ PendingAttestation 4096);
                    ("current_epoch_attestations", List_ PendingAttestation 4096)]
      | _ => [("previous_epoch_participation", registry (Uint 1)); ("current_epoch_participation", registry (Uint 1))]
      end
   ++ [("justification_bits", Bitvector 4); ("previous_justified_checkpoint", Checkpoint_);
       ("current_justified_checkpoint", Checkpoint_); ("finalized_checkpoint", Checkpoint_)]
   ++ since VAltair v [("inactivity_scores", registry uint64); ("current_sync_committee", SyncCommittee);
                       ("next_sync_committee", SyncCommittee)]
   ++ since VBellatrix v [("latest_execution_payload_header", Container (payload_header v))]
   ++ since VCapella v [("next_withdrawal_index", uint64); ("next_withdrawal_validator_index", uint64);
                        ("historical_summaries", List_ HistoricalSummary (2 ^ 24))]
   ++ since VElectra v [("deposit_requests_start_index", uint64); ("deposit_balance_to_consume", uint64);
                        ("exit_balance_to_consume", uint64); ("earliest_exit_epoch", uint64);
                        ("consolidation_balance_to_consume", uint64); ("earliest_consolidation_epoch", uint64);
                        ("pending_deposits", List_ PendingDeposit (2 ^ 27));
                        ("pending_partial_withdrawals", List_ PendingPartialWithdrawal (2 ^ 27));
                        ("pending_consolidations", List_ PendingConsolidation (2 ^ 18))]
   ++ since VFulu v [("proposer_lookahead", Vector uint64 64)])%list.

(** ** What tells the versions apart *)
(** What a version has and the one before it has not; a path leads into the payload header. *)
Definition header_ := "latest_execution_payload_header".
Definition additions (v : version) : list (list string) :=
  match v with
  | VPhase0 => []
  | VAltair => [["previous_epoch_participation"]; ["current_epoch_participation"]; ["inactivity_scores"];
                ["current_sync_committee"]; ["next_sync_committee"]]
  | VBellatrix => [[header_]]
  | VCapella => [[header_; "withdrawals_root"]; ["next_withdrawal_index"]; ["next_withdrawal_validator_index"]; ["historical_summaries"]]
  | VDeneb => [[header_; "blob_gas_used"]; [header_; "excess_blob_gas"]]
  | VElectra => [["deposit_requests_start_index"]; ["deposit_balance_to_consume"]; ["exit_balance_to_consume"];
                 ["earliest_exit_epoch"]; ["consolidation_balance_to_consume"]; ["earliest_consolidation_epoch"];
                 ["pending_deposits"]; ["pending_partial_withdrawals"]; ["pending_consolidations"]]
  | VFulu => [["proposer_lookahead"]]
  end.
Definition next_version (v : version) : option version :=
  match v with
  | VPhase0 => Some VAltair | VAltair => Some VBellatrix | VBellatrix => Some VCapella | VCapella => Some VDeneb
  | VDeneb => Some VElectra | VElectra => Some VFulu | VFulu => None
  end.
Fixpoint lacks (path : list string) (j : json) : Prop :=
  match path with
  | [] => False
  | name :: rest => exists m, j = JObj m /\
      (~ In name (map fst m) \/ (NoDup (map fst m) /\ exists j', In (name, j') m /\ lacks rest j'))
  end.
(** Something that the next version adds is missing. *)
Definition not_newer (v : version) (j : json) : Prop :=
  match next_version v with
  | None => True
  | Some v' => exists path, In path (additions v') /\ lacks path j
  end.
Close Scope string_scope.

(** ** An ordinary node *)
(** The values of a type. *)
Fixpoint wf (k : kind) (v : val) : Prop :=
  match k with
  | Uint n => exists x, v = VNum x /\ x < 2 ^ (8 * N.of_nat n)
  | Boolean => exists b, v = VBool b
  | ByteVector n => exists b, v = VBytes b /\ N.of_nat (length b) = n
  | ByteList n => exists b, v = VBytes b /\ N.of_nat (length b) <= n
  | Vector k' n => exists vs, v = VSeq vs /\ N.of_nat (length vs) = n /\ Forall (wf k') vs
  | List_ k' n => exists vs, v = VSeq vs /\ N.of_nat (length vs) <= n /\ Forall (wf k') vs
  | Container fs =>
      exists vs, v = VSeq vs /\
        (fix each (fs : list (string * kind)) (vs : list val) : Prop :=
           match fs, vs with
           | [], [] => True
           | (_, k') :: fs', x :: vs' => wf k' x /\ each fs' vs'
           | _, _ => False
           end) fs vs
  | Bitvector n => exists l, v = VBits l /\ N.of_nat (length l) = n
  | Bitlist n => exists l, v = VBits l /\ N.of_nat (length l) <= n
  end.
(** Bits as bytes: bit [8 i + k] is bit [k] of byte [i]; what is left of the last byte is zero. *)
Definition bit_byte (l : list bool) (i : nat) : byte :=
  byte_of_N (fold_right (fun k acc => N.b2n (nth (8 * i + k) l false) + 2 * acc) 0 (seq 0 8)).
Definition bitfield (l : list bool) : bytes := map (bit_byte l) (seq 0 (Nat.div (length l + 7) 8)).
(** The text that a node produces: numbers without leading zeros, lower-case hexadecimal, the fields in
    their order and nothing else. *)
Fixpoint write (k : kind) (v : val) : json :=
  match k, v with
  | Uint _, VNum x => JStr (HostStore.decimal x)
  | Boolean, VBool b => JBool b
  | ByteVector _, VBytes b => JStr (x30 :: x78 :: BeaconClient.hex b)
  | ByteList _, VBytes b => JStr (x30 :: x78 :: BeaconClient.hex b)
  | Vector k' _, VSeq vs => JArr (map (write k') vs)
  | List_ k' _, VSeq vs => JArr (map (write k') vs)
  | Container fs, VSeq vs =>
      JObj ((fix each (fs : list (string * kind)) (vs : list val) : list (string * json) :=
               match fs, vs with
               | (name, k') :: fs', x :: vs' => (name, write k' x) :: each fs' vs'
               | _, _ => []
               end) fs vs)
  | Bitvector _, VBits l => JStr (x30 :: x78 :: BeaconClient.hex (bitfield l))
  | Bitlist _, VBits l => JStr (x30 :: x78 :: BeaconClient.hex (bitfield (l ++ [true])))
  | _, _ => JNull
  end.
(** The beacon API's answers: for a state, with the version and further members [more] (such as
    [execution_optimistic] and [finalized]); for the checkpoints of a state; for a header. *)
Definition state_answer (v : version) (data : json) (more : list (string * json)) : json :=
  JObj (("version"%string, JStr (version_name v)) :: ("data"%string, data) :: more).
Definition answer (data : json) (more : list (string * json)) : json := JObj (("data"%string, data) :: more).
Definition no_clash (more : list (string * json)) : Prop := ~ In "version"%string (map fst more) /\ ~ In "data"%string (map fst more).
Definition FinalityAnswer : kind :=
  Container [("previous_justified", Checkpoint_); ("current_justified", Checkpoint_); ("finalized", Checkpoint_)]%string.
Definition HeaderAnswer : kind :=
  Container [("root", Bytes32); ("canonical", Boolean);
             ("header", Container [("message", BeaconBlockHeader); ("signature", ByteVector 96)])]%string.
