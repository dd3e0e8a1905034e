(** How the answers of the beacon node are read: host/src/beacon_state.rs:684-743 (the hand-written
    [Deserialize] of the versioned state), the serde attributes of the types at beacon_state.rs:86-308,
    and the answer types of host/src/beacon_client.rs:50-93.
    External and modelled from documentation: [serde_json], the derived [Deserialize] of structs, the
    modules [as_str] and [seq_of_str] of [ethereum_consensus], its types up to Deneb. *)
From Coq Require Import String List NArith Bool.
From Coq.Init Require Import Byte.
From Verif.Model Require Import Base Types HostStore HostInput BeaconClient StateFile.
From Verif.Model Require InputCodec.
From Verif.Spec Require Import Merkle Beacon.
Import ListNotations.
Open Scope list_scope.
Open Scope N_scope.

(** ** JSON *)
(** Strings are byte strings except for the names of members. Numbers other than naturals have no use here. *)
Inductive json :=
| JNull
| JBool (b : bool)
| JNum (n : N)
| JStr (s : bytes)
| JArr (l : list json)
| JObj (m : list (string * json)).
(** [serde_json::Value] holds objects as maps: a repeated name overwrites. *)
Fixpoint member (m : list (string * json)) (name : string) : option json :=
  match m with
  | [] => None
  | (k, j) :: r => match member r name with
                   | Some x => Some x
                   | None => if String.eqb k name then Some j else None
                   end
  end.
(** A derived struct that is read directly from the text refuses a repeated field. *)
Definition only_member (m : list (string * json)) (name : string) : option json :=
  match filter (fun kj => String.eqb (fst kj) name) m with [(_, j)] => Some j | _ => None end.

(** ** Types and values *)
(** The types that occur, with what decides how they are written in JSON. [TUint n str]: an unsigned
    integer of [n] bytes, with the attribute [as_str] (or inside [seq_of_str]) or without. Byte and bit
    vectors and lists are all written in hexadecimal, bits as in SSZ. *)
Inductive ty :=
| TUint (n : nat) (str : bool)
| TBool
| TBytes (n : N)
| TByteList (limit : N)
| TVec (n : N) (t : ty)
| TList (limit : N) (t : ty)
| TCont (fs : list (string * ty))
| TBits (n : N)
| TBitList (limit : N).
Inductive val := VNum (n : N) | VBool (b : bool) | VBytes (b : bytes) | VSeq (l : list val) | VBits (l : list bool).
Definition len {A} (l : list A) : N := N.of_nat (length l).

(** ** Leaves *)
(** [FromStr] of unsigned integers. *)
Definition parse_uint (n : nat) (l : bytes) : option N :=
  let body := match l with x2b :: r => r | _ => l end in
  match body with
  | [] => None
  | _ => match digits_val 0 body with
         | Some v => if v <? 2 ^ (8 * N.of_nat n) then Some v else None
         | None => None
         end
  end.
(** [try_bytes_from_hex_str]: 0x and pairs of hexadecimal digits of either case. *)
Definition hex_val (b : byte) : option N :=
  let n := Byte.to_N b in
  if (48 <=? n) && (n <=? 57) then Some (n - 48)
  else if (97 <=? n) && (n <=? 102) then Some (n - 87)
  else if (65 <=? n) && (n <=? 70) then Some (n - 55) else None.
Fixpoint unhex_digits (l : bytes) : option bytes :=
  match l with
  | [] => Some []
  | a :: b :: r => match hex_val a, hex_val b, unhex_digits r with
                   | Some x, Some y, Some s => Some (byte_of_N (16 * x + y) :: s)
                   | _, _, _ => None
                   end
  | _ => None
  end.
Definition unhex (l : bytes) : option bytes :=
  match l with x30 :: x78 :: r => unhex_digits r | _ => None end.

(** ** Reading *)
Section All.
  Context {A B : Type} (f : A -> option B).
  Fixpoint all (l : list A) : option (list B) :=
    match l with
    | [] => Some []
    | a :: r => match f a, all r with Some b, Some s => Some (b :: s) | _, _ => None end
    end.
End All.
(** [Deserialize]. A derived struct is read from an object, where it takes its fields by name, in any
    order, and ignores other members, or from an array of exactly its fields. No field is optional. *)
Fixpoint from_json (t : ty) (j : json) : option val :=
  match t with
  | TUint n true => match j with JStr s => option_map VNum (parse_uint n s) | _ => None end
  | TUint n false => match j with JNum x => if x <? 2 ^ (8 * N.of_nat n) then Some (VNum x) else None | _ => None end
  | TBool => match j with JBool b => Some (VBool b) | _ => None end
  | TBytes n =>
      match j with
      | JStr s => match unhex s with Some b => if blen b =? n then Some (VBytes b) else None | None => None end
      | _ => None
      end
  | TByteList limit =>
      match j with
      | JStr s => match unhex s with Some b => if blen b <=? limit then Some (VBytes b) else None | None => None end
      | _ => None
      end
  | TVec n t' =>
      match j with
      | JArr l => match all (from_json t') l with
                  | Some vs => if len vs =? n then Some (VSeq vs) else None
                  | None => None
                  end
      | _ => None
      end
  | TList limit t' =>
      match j with
      | JArr l => match all (from_json t') l with
                  | Some vs => if len vs <=? limit then Some (VSeq vs) else None
                  | None => None
                  end
      | _ => None
      end
  | TCont fs =>
      match j with
      | JObj m =>
          option_map VSeq
            ((fix by_name (fs : list (string * ty)) : option (list val) :=
                match fs with
                | [] => Some []
                | (n, t') :: r =>
                    match member m n with
                    | Some j' => match from_json t' j', by_name r with Some v, Some s => Some (v :: s) | _, _ => None end
                    | None => None
                    end
                end) fs)
      | JArr l =>
          option_map VSeq
            ((fix in_order (fs : list (string * ty)) (l : list json) : option (list val) :=
                match fs, l with
                | [], [] => Some []
                | (_, t') :: r, j' :: l' =>
                    match from_json t' j', in_order r l' with Some v, Some s => Some (v :: s) | _, _ => None end
                | _, _ => None
                end) fs l)
      | _ => None
      end
  | TBits n =>
      match j with
      | JStr s => match unhex s with Some b => option_map VBits (InputCodec.unssz_bitvector n b) | None => None end
      | _ => None
      end
  | TBitList limit =>
      match j with
      | JStr s => match unhex s with Some b => option_map VBits (InputCodec.unssz_bitlist limit b) | None => None end
      | _ => None
      end
  end.

(** ** The types of the states *)
Open Scope string_scope.
Definition u64_str : ty := TUint 8 true.
Definition root_t : ty := TBytes 32.
(** [ethereum_consensus] (external): [Fork], [BeaconBlockHeader], [Eth1Data], [Validator], [Checkpoint],
    [AttestationData], [PendingAttestation], [SyncCommittee], [HistoricalSummary], [PendingConsolidation]. *)
Definition fork_t : ty := TCont [("previous_version", TBytes 4); ("current_version", TBytes 4); ("epoch", u64_str)].
Definition header_t : ty :=
  TCont [("slot", u64_str); ("proposer_index", u64_str); ("parent_root", root_t); ("state_root", root_t); ("body_root", root_t)].
Definition eth1_data_t : ty := TCont [("deposit_root", root_t); ("deposit_count", u64_str); ("block_hash", root_t)].
Definition validator_t : ty :=
  TCont [("pubkey", TBytes 48); ("withdrawal_credentials", root_t); ("effective_balance", u64_str); ("slashed", TBool);
         ("activation_eligibility_epoch", u64_str); ("activation_epoch", u64_str); ("exit_epoch", u64_str);
         ("withdrawable_epoch", u64_str)].
Definition checkpoint_t : ty := TCont [("epoch", u64_str); ("root", root_t)].
Definition attestation_data_t : ty :=
  TCont [("slot", u64_str); ("index", u64_str); ("beacon_block_root", root_t); ("source", checkpoint_t); ("target", checkpoint_t)].
Definition pending_attestation_t : ty :=
  TCont [("aggregation_bits", TBitList 2048); ("data", attestation_data_t); ("inclusion_delay", u64_str); ("proposer_index", u64_str)].
Definition sync_committee_t : ty := TCont [("pubkeys", TVec 512 (TBytes 48)); ("aggregate_pubkey", TBytes 48)].
Definition historical_summary_t : ty := TCont [("block_summary_root", root_t); ("state_summary_root", root_t)].
Definition pending_consolidation_t : ty := TCont [("source_index", u64_str); ("target_index", u64_str)].
(** beacon_state.rs:107-119 [DepositReceipt] (with [rename = "pubkey"]) *)
Definition deposit_receipt_t : ty :=
  TCont [("pubkey", TBytes 48); ("withdrawal_credentials", root_t); ("amount", u64_str); ("signature", TBytes 96); ("slot", u64_str)].
(** beacon_state.rs:121-131 [PendingPartialWithdrawal] *)
Definition pending_partial_withdrawal_t : ty :=
  TCont [("validator_index", u64_str); ("amount", u64_str); ("withdrawable_epoch", u64_str)].
(** [ExecutionPayloadHeader] of Bellatrix, Capella and Deneb (that of Electra is Deneb's). *)
Definition bellatrix_header_fields : list (string * ty) :=
  [("parent_hash", root_t); ("fee_recipient", TBytes 20); ("state_root", root_t); ("receipts_root", root_t);
   ("logs_bloom", TBytes 256); ("prev_randao", root_t); ("block_number", u64_str); ("gas_limit", u64_str);
   ("gas_used", u64_str); ("timestamp", u64_str); ("extra_data", TByteList 32); ("base_fee_per_gas", TUint 32 true);
   ("block_hash", root_t); ("transactions_root", root_t)].
Definition capella_header_fields := (bellatrix_header_fields ++ [("withdrawals_root", root_t)])%list.
Definition deneb_header_fields := (capella_header_fields ++ [("blob_gas_used", u64_str); ("excess_blob_gas", u64_str)])%list.

(** beacon_state.rs:150-174 and 246-270: the fields that all versions have first. *)
Definition j_base : list (string * ty) :=
  [("genesis_time", u64_str); ("genesis_validators_root", root_t); ("slot", u64_str); ("fork", fork_t);
   ("latest_block_header", header_t); ("block_roots", TVec 8192 root_t); ("state_roots", TVec 8192 root_t);
   ("historical_roots", TList 16777216 root_t); ("eth1_data", eth1_data_t); ("eth1_data_votes", TList 2048 eth1_data_t);
   ("eth1_deposit_index", u64_str); ("validators", TList 1099511627776 validator_t);
   ("balances", TList 1099511627776 u64_str); ("randao_mixes", TVec 65536 root_t); ("slashings", TVec 8192 u64_str)].
Definition j_checkpoints : list (string * ty) :=
  [("justification_bits", TBits 4); ("previous_justified_checkpoint", checkpoint_t);
   ("current_justified_checkpoint", checkpoint_t); ("finalized_checkpoint", checkpoint_t)].
Definition j_phase0 : list (string * ty) :=
  (j_base ++ [("previous_epoch_attestations", TList 4096 pending_attestation_t);
              ("current_epoch_attestations", TList 4096 pending_attestation_t)] ++ j_checkpoints)%list.
(** beacon_state.rs:171-183 and 267-279 *)
Definition j_altair : list (string * ty) :=
  (j_base ++ [("previous_epoch_participation", TList 1099511627776 (TUint 1 true));
              ("current_epoch_participation", TList 1099511627776 (TUint 1 true))] ++ j_checkpoints
          ++ [("inactivity_scores", TList 1099511627776 u64_str);
              ("current_sync_committee", sync_committee_t); ("next_sync_committee", sync_committee_t)])%list.
(** beacon_state.rs:184-190 and 280-286 *)
Definition j_payload (fs : list (string * ty)) : list (string * ty) := [("latest_execution_payload_header", TCont fs)].
Definition j_withdrawals : list (string * ty) :=
  [("next_withdrawal_index", u64_str); ("next_withdrawal_validator_index", u64_str);
   ("historical_summaries", TList 16777216 historical_summary_t)].
(** beacon_state.rs:191-207 and 287-303 *)
Definition j_electra : list (string * ty) :=
  [("deposit_requests_start_index", u64_str); ("deposit_balance_to_consume", u64_str);
   ("exit_balance_to_consume", u64_str); ("earliest_exit_epoch", u64_str);
   ("consolidation_balance_to_consume", u64_str); ("earliest_consolidation_epoch", u64_str);
   ("pending_deposits", TList 134217728 deposit_receipt_t);
   ("pending_partial_withdrawals", TList 134217728 pending_partial_withdrawal_t);
   ("pending_consolidations", TList 262144 pending_consolidation_t)].
(** beacon_state.rs:304-305 *)
Definition j_fulu : list (string * ty) := [("proposer_lookahead", TVec 64 u64_str)].
Definition typed_fields (v : version) : list (string * ty) :=
  match v with
  | VPhase0 => j_phase0
  | VAltair => j_altair
  | VBellatrix => j_altair ++ j_payload bellatrix_header_fields
  | VCapella => j_altair ++ j_payload capella_header_fields ++ j_withdrawals
  | VDeneb => j_altair ++ j_payload deneb_header_fields ++ j_withdrawals
  | VElectra => j_altair ++ j_payload deneb_header_fields ++ j_withdrawals ++ j_electra
  | VFulu => j_altair ++ j_payload deneb_header_fields ++ j_withdrawals ++ j_electra ++ j_fulu
  end%list.
Close Scope string_scope.

(** A state with its fields as values. *)
Record TState := mkTState { ts_version : version; ts_fields : list val }.
Definition read_version (v : version) (j : json) : option TState :=
  match from_json (TCont (typed_fields v)) j with Some (VSeq vs) => Some (mkTState v vs) | _ => None end.
(** beacon_state.rs:716-738: the variants in this order; the first that can be read is taken. *)
Fixpoint try_versions (order : list version) (j : json) : option TState :=
  match order with
  | [] => None
  | v :: r => match read_version v j with Some st => Some st | None => try_versions r j end
  end.
Definition read_order : list version := [VFulu; VElectra; VDeneb; VCapella; VBellatrix; VAltair; VPhase0].
Definition state_of_json (j : json) : option TState := try_versions read_order j.

(** ** The answers *)
(** [Fork] of [ethereum_consensus]: lower-case names (only the string form is modelled). *)
Definition version_name (v : version) : bytes :=
  match v with
  | VPhase0 => [x70; x68; x61; x73; x65; x30]
  | VAltair => [x61; x6c; x74; x61; x69; x72]
  | VBellatrix => [x62; x65; x6c; x6c; x61; x74; x72; x69; x78]
  | VCapella => [x63; x61; x70; x65; x6c; x6c; x61]
  | VDeneb => [x64; x65; x6e; x65; x62]
  | VElectra => [x65; x6c; x65; x63; x74; x72; x61]
  | VFulu => [x66; x75; x6c; x75]
  end.
Definition version_of_json (j : json) : option version :=
  match j with JStr s => find (fun v => bytes_eqb (version_name v) s) all_versions | _ => None end.
(** beacon_client.rs:79-85 [Response]: the member [data]; the others go into [meta]. *)
Definition response_data (j : json) : option json :=
  match j with JObj m => only_member m "data" | _ => None end.
(** beacon_client.rs:87-93 [VersionedResponse] *)
Definition versioned_state (j : json) : option (version * TState) :=
  match j with
  | JObj m =>
      match only_member m "version", only_member m "data" with
      | Some jv, Some jd =>
          match version_of_json jv, state_of_json jd with Some v, Some st => Some (v, st) | _, _ => None end
      | _, _ => None
      end
  | _ => None
  end.
Definition version_eqb (a b : version) : bool := bytes_eqb (version_name a) (version_name b).
(** beacon_client.rs:249-262 [get_beacon_state], for the answer received; the versions are compared by
    their names. *)
Definition read_state (r : Reply json) : outcome ClientError TState :=
  '(v, st) <- read_reply versioned_state r ;;
  _ <- ensure (version_eqb v (ts_version st)) CVersionMismatch ;;
  Ok st.

(** beacon_client.rs:65-70 [CheckpointResponse], :72-77 [FinalizedCheckpointResponse] *)
Definition checkpoint_response_t : ty := TCont [("root", root_t); ("epoch", u64_str)]%string.
Definition finality_t : ty :=
  TCont [("previous_justified", checkpoint_response_t); ("current_justified", checkpoint_response_t);
         ("finalized", checkpoint_response_t)]%string.
Definition checkpoint_of (v : val) : option Checkpoint :=
  match v with VSeq [VBytes r; VNum e] => Some (mkCheckpoint e r) | _ => None end.
(** beacon_client.rs:265-273 and :276-280 *)
Definition finality_of_json (j : json) : option Finality :=
  match response_data j with
  | Some d =>
      match from_json finality_t d with
      | Some (VSeq [p; c; f]) =>
          match checkpoint_of p, checkpoint_of c, checkpoint_of f with
          | Some p', Some c', Some f' => Some (mkFinality p' c' f')
          | _, _, _ => None
          end
      | _ => None
      end
  | None => None
  end.
(** beacon_client.rs:50-57 [BlockHeaderResponse]; [SignedBeaconBlockHeader] is external. The signature
    is dropped, the rest of the answer is required but not used. *)
Definition header_response_t : ty :=
  TCont [("root", root_t); ("canonical", TBool); ("header", TCont [("message", header_t); ("signature", TBytes 96)])]%string.
Definition header_of (v : val) : option Header :=
  match v with
  | VSeq [VNum s; VNum p; VBytes pr; VBytes sr; VBytes br] => Some (mkHeader s p pr sr (MLeaf br))
  | _ => None
  end.
Definition header_of_json (j : json) : option Header :=
  match response_data j with
  | Some d =>
      match from_json header_response_t d with
      | Some (VSeq [_; _; VSeq [h; _]]) => header_of h
      | _ => None
      end
  | None => None
  end.

(** ** SSZ *)
(** The size of a type if it is fixed. *)
Fixpoint ty_size (t : ty) : option N :=
  match t with
  | TUint n _ => Some (N.of_nat n)
  | TBool => Some 1
  | TBytes n => Some n
  | TByteList _ => None
  | TVec n t' => match ty_size t' with Some k => Some (n * k) | None => None end
  | TList _ _ => None
  | TCont fs =>
      (fix go (fs : list (string * ty)) : option N :=
         match fs with
         | [] => Some 0
         | (_, t') :: r => match ty_size t', go r with Some a, Some b => Some (a + b) | _, _ => None end
         end) fs
  | TBits n => Some ((n + 7) / 8)
  | TBitList _ => None
  end.
Definition part_of (t : ty) (b : bytes) : part := match ty_size t with Some _ => PFix b | None => PVar b end.
(** The SSZ serialization of a value (external, [ssz_rs]). *)
Fixpoint to_ssz (t : ty) (v : val) : bytes :=
  match t, v with
  | TUint n _, VNum x => le_bytes n x
  | TBool, VBool b => [if b then x01 else x00]
  | TBytes _, VBytes b => b
  | TByteList _, VBytes b => b
  | TVec _ t', VSeq l => encode_container (map (fun x => part_of t' (to_ssz t' x)) l)
  | TList _ t', VSeq l => encode_container (map (fun x => part_of t' (to_ssz t' x)) l)
  | TCont fs, VSeq l =>
      encode_container
        ((fix go (fs : list (string * ty)) (l : list val) : list part :=
            match fs, l with
            | (_, t') :: r, x :: l' => part_of t' (to_ssz t' x) :: go r l'
            | _, _ => []
            end) fs l)
  | TBits _, VBits l => InputCodec.ssz_bitvector l
  | TBitList _, VBits l => InputCodec.ssz_bitlist l
  | _, _ => []
  end.
Fixpoint ssz_parts (fs : list (string * ty)) (l : list val) : list part :=
  match fs, l with
  | (_, t') :: r, x :: l' => part_of t' (to_ssz t' x) :: ssz_parts r l'
  | _, _ => []
  end.
(** The state as Model/StateFile.v has it: the fields by their encodings. *)
Definition bstate_of (st : TState) : BState := mkBState (ts_version st) (ssz_parts (typed_fields (ts_version st)) (ts_fields st)).
