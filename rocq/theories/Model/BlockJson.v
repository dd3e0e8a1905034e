(** How the beacon node's answers for blocks are read (host/src/beacon_client.rs:60-63 and 236-246), what
    becomes of their attestations (host/src/conversions.rs:25-43 and host_input_reader.rs:287-337), and
    the node as the host sees it when every answer is JSON.
    External and modelled from documentation: the block containers of [ethereum_consensus] and the
    [Deserialize] of its versioned block (each variant in turn, as for states), [ssz_rs] and Lighthouse's
    SSZ. *)
From Coq Require Import String List NArith Bool.
From Coq.Init Require Import Byte.
From Verif.Model Require Import Base Types ConsensusState GuestReader Verify HostChain HostStore HostInput CliRun BeaconClient StateFile.
From Verif.Model Require InputCodec.
From Verif.Spec Require Import Merkle Beacon StateJsonSpec HashTreeRoot.
From Verif.Spec Require BlockSpec.
From Verif.Model Require Import StateJson StateView.
Import ListNotations.
Open Scope list_scope.
Open Scope N_scope.

(** ** The types of the blocks *)
Open Scope string_scope.
Definition sig_t : ty := TBytes 96.
Definition signed_t (t : ty) : ty := TCont [("message", t); ("signature", sig_t)].
Definition proposer_slashing_t : ty := TCont [("signed_header_1", signed_t header_t); ("signed_header_2", signed_t header_t)].
Definition indexed_attestation_t (limit : N) : ty :=
  TCont [("attesting_indices", TList limit u64_str); ("data", attestation_data_t); ("signature", sig_t)].
Definition attester_slashing_t (limit : N) : ty :=
  TCont [("attestation_1", indexed_attestation_t limit); ("attestation_2", indexed_attestation_t limit)].
Definition attestation_t : ty := TCont [("aggregation_bits", TBitList 2048); ("data", attestation_data_t); ("signature", sig_t)].
Definition electra_attestation_t : ty :=
  TCont [("aggregation_bits", TBitList 131072); ("data", attestation_data_t); ("signature", sig_t); ("committee_bits", TBits 64)].
Definition deposit_t : ty :=
  TCont [("proof", TVec 33 root_t);
         ("data", TCont [("pubkey", TBytes 48); ("withdrawal_credentials", root_t); ("amount", u64_str); ("signature", sig_t)])].
Definition voluntary_exit_t : ty := TCont [("epoch", u64_str); ("validator_index", u64_str)].
Definition sync_aggregate_t : ty := TCont [("sync_committee_bits", TBits 512); ("sync_committee_signature", sig_t)].
Definition withdrawal_t : ty := TCont [("index", u64_str); ("validator_index", u64_str); ("address", TBytes 20); ("amount", u64_str)].
Definition address_change_t : ty := TCont [("validator_index", u64_str); ("from_bls_pubkey", TBytes 48); ("to_execution_address", TBytes 20)].
Definition deposit_request_t : ty :=
  TCont [("pubkey", TBytes 48); ("withdrawal_credentials", root_t); ("amount", u64_str); ("signature", sig_t); ("index", u64_str)].
Definition withdrawal_request_t : ty := TCont [("source_address", TBytes 20); ("validator_pubkey", TBytes 48); ("amount", u64_str)].
Definition consolidation_request_t : ty := TCont [("source_address", TBytes 20); ("source_pubkey", TBytes 48); ("target_pubkey", TBytes 48)].
Definition execution_requests_t : ty :=
  TCont [("deposits", TList 8192 deposit_request_t); ("withdrawals", TList 16 withdrawal_request_t);
         ("consolidations", TList 2 consolidation_request_t)].
Definition bellatrix_payload : list (string * ty) :=
  [("parent_hash", root_t); ("fee_recipient", TBytes 20); ("state_root", root_t); ("receipts_root", root_t);
   ("logs_bloom", TBytes 256); ("prev_randao", root_t); ("block_number", u64_str); ("gas_limit", u64_str);
   ("gas_used", u64_str); ("timestamp", u64_str); ("extra_data", TByteList 32); ("base_fee_per_gas", TUint 32 true);
   ("block_hash", root_t); ("transactions", TList 1048576 (TByteList 1073741824))].
Definition capella_payload := (bellatrix_payload ++ [("withdrawals", TList 16 withdrawal_t)])%list.
Definition deneb_payload := (capella_payload ++ [("blob_gas_used", u64_str); ("excess_blob_gas", u64_str)])%list.
Definition body_base (slashings attestations : ty) : list (string * ty) :=
  [("randao_reveal", sig_t); ("eth1_data", eth1_data_t); ("graffiti", root_t);
   ("proposer_slashings", TList 16 proposer_slashing_t); ("attester_slashings", slashings);
   ("attestations", attestations); ("deposits", TList 16 deposit_t); ("voluntary_exits", TList 16 (signed_t voluntary_exit_t))].
Definition phase0_body := body_base (TList 2 (attester_slashing_t 2048)) (TList 128 attestation_t).
Definition altair_body := (phase0_body ++ [("sync_aggregate", sync_aggregate_t)])%list.
Definition changes_t : list (string * ty) := [("bls_to_execution_changes", TList 16 (signed_t address_change_t))].
Definition blobs_t : list (string * ty) := [("blob_kzg_commitments", TList 4096 (TBytes 48))].
(** Fulu's containers are Electra's; [ethereum_consensus] has no Fulu block. *)
Definition body_fields (v : version) : list (string * ty) :=
  match v with
  | VPhase0 => phase0_body
  | VAltair => altair_body
  | VBellatrix => altair_body ++ [("execution_payload", TCont bellatrix_payload)]
  | VCapella => altair_body ++ [("execution_payload", TCont capella_payload)] ++ changes_t
  | VDeneb => altair_body ++ [("execution_payload", TCont deneb_payload)] ++ changes_t ++ blobs_t
  | VElectra | VFulu =>
      body_base (TList 1 (attester_slashing_t 131072)) (TList 8 electra_attestation_t) ++ [("sync_aggregate", sync_aggregate_t)]
      ++ [("execution_payload", TCont deneb_payload)] ++ changes_t ++ blobs_t ++ [("execution_requests", execution_requests_t)]
  end%list.
Definition block_t (v : version) : ty :=
  TCont [("slot", u64_str); ("proposer_index", u64_str); ("parent_root", root_t); ("state_root", root_t); ("body", TCont (body_fields v))].
Close Scope string_scope.

(** ** Reading *)
(** A block with its values. *)
Record TBlock := mkTBlock { tb_version : version; tb_value : val }.
Definition block_order : list version := [VElectra; VDeneb; VCapella; VBellatrix; VAltair; VPhase0].
Fixpoint try_blocks (order : list version) (j : json) : option TBlock :=
  match order with
  | [] => None
  | v :: r => match from_json (block_t v) j with Some x => Some (mkTBlock v x) | None => try_blocks r j end
  end.
Definition block_of_value (j : json) : option TBlock := try_blocks block_order j.
(** beacon_client.rs:60-63 [BlockResponse]: of the signed block only the message. The answer's version
    goes into [meta] and is not looked at. *)
Definition block_of_json (j : json) : option TBlock :=
  match response_data j with
  | Some (JObj m) => match only_member m "message" with Some b => block_of_value b | None => None end
  | Some (JArr [b]) => block_of_value b
  | _ => None
  end.
(** The field of a body by its name. *)
Definition body_field (b : TBlock) (name : string) : val :=
  match find (fun nv => String.eqb (fst nv) name) (combine (map fst (body_fields (tb_version b))) (as_seq (sub (tb_value b) 4))) with
  | Some nv => snd nv
  | None => VNum 0
  end.

(** ** Attestations *)
(** conversions.rs:25-43: serialized with [ssz_rs], deserialized with Lighthouse's type for Electra (in
    Model/InputCodec.v the type that the byte 1 selects). *)
Definition convert_attestation (C : InputCodec.Codec) (a : val) : option Attestation :=
  InputCodec.unssz_attestation C (x01 :: to_ssz electra_attestation_t a).
(** host_input_reader.rs:310-328 *)
Definition is_electra (v : version) : bool := match v with VElectra => true | _ => false end.
Definition index_block_value (C : InputCodec.Codec) (m : link_map) (ob : option TBlock) : outcome HostError link_map :=
  match ob with
  | None => Ok m
  | Some b =>
      if is_electra (tb_version b) then
        fold_outcome (fun m v => a <- ok_or (convert_attestation C v) (HOther 6) ;; Ok (lm_push m (att_link a) a))
          (as_seq (body_field b "attestations")) m
      else Err UnsupportedBlockVersion
  end.
(** host_input_reader.rs:287-337, as Model/HostChain.v has it but on the blocks as they were read. *)
Definition collect_from_blocks (C : InputCodec.Codec) (cs : ChainSpec) (blocks : Slot -> outcome N (option TBlock)) (links : list Link)
  : outcome HostError (list Attestation) :=
  match links with
  | [] => Ok []
  | l :: r =>
      let start := sat_mul (min_target l r) (slots_per_epoch cs) in
      let stop := sat_mul (sat_add (max_target l r) 1) (slots_per_epoch cs) in
      bs <- map_outcome (fun sl => map_err HOther (blocks sl)) (epoch_range start stop) ;;
      m <- fold_outcome (index_block_value C) bs [] ;;
      Ok (assemble m links)
  end.

(** ** The node *)
(** A block as Model/HostChain.v has it, where the attestations are converted when the block is read. *)
Definition block_view (C : InputCodec.Codec) (b : TBlock) : outcome N Block :=
  if is_electra (tb_version b) then
    match all (convert_attestation C) (as_seq (body_field b "attestations")) with
    | Some l => Ok (mkBlock true l)
    | None => Err 6
    end
  else Ok (mkBlock false []).
(** preflight_input_reader.rs uses the tree of the whole block and proves its state root only: the tree
    of the body is cut off at its root. *)
Definition body_root (H : bytes -> bytes) (b : TBlock) : bytes :=
  hash_tree_root H (Container (BlockSpec.body_fields (tb_version b))) (sub (tb_value b) 4).
Definition block_header (H : bytes -> bytes) (b : TBlock) : Header :=
  mkHeader (as_num (sub (tb_value b) 0)) (as_num (sub (tb_value b) 1)) (as_bytes (sub (tb_value b) 2)) (as_bytes (sub (tb_value b) 3))
    (MLeaf (body_root H b)).

Section Node.
  Variables (H : bytes -> bytes) (C : InputCodec.Codec) (endpoint : Url) (server : Url -> Reply json).
  (** beacon_client.rs:202-212 [get_json] without a cache (zkasper_cli.rs:174-176). *)
  Definition ask {A} (q : Request) (dec : json -> option A) : outcome ClientError A :=
    match join endpoint (BeaconClient.path q) with Some u => read_reply dec (server u) | None => Err CUrl end.
  (** :217-230, :236-246, :249-262, :265-273 *)
  Definition ask_header (i : Id) : outcome ClientError (option Header) := or_absent (ask (GetHeader i) header_of_json).
  Definition ask_block (i : Id) : outcome ClientError (option TBlock) := or_absent (ask (GetBlock i) block_of_json).
  Definition ask_state (i : Id) : outcome ClientError TState :=
    match join endpoint (BeaconClient.path (GetState i)) with Some u => read_state (server u) | None => Err CUrl end.
  Definition ask_finality (i : Id) : outcome ClientError Finality := ask (GetFinality i) finality_of_json.
  (** :283-301 (chain_reader.rs) *)
  Definition json_chain : Chain :=
    mkChain
      (fun s => code (f <- ask_finality (AtSlot s) ;; cs_new (f_current_justified f) (f_finalized f)))
      (fun s => ob <- code (ask_block (AtSlot s)) ;;
                match ob with Some b => x <- block_view C b ;; Ok (Some x) | None => Ok None end)
      (fun r => opt_map hd_slot (code (ask_header (AtRoot r)))).
  (** zkasper_cli.rs:174-208: all of what the host uses of the node. *)
  Definition json_node (fuel : nat) : Node :=
    mkNode
      (f <- code (ask_finality Head) ;; Ok (epoch (f_finalized f)))
      (fun s => map_err (fun _ => POther 5) (st <- ask_state (AtSlot s) ;; Ok (view H st)))
      (fun r => code (ask_header (AtRoot r)))
      (fun s => opt_map (block_header H) (code (ask_block (AtSlot s))))
      json_chain fuel.
End Node.
