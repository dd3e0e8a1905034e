(** What a user of the state files relies on: the last list of each version is the only thing that a
    torn file can lack. *)
From Coq Require Import String.
From Verif.Model Require Import Base StateFile.
Open Scope string_scope.

(** The last variable-size field of each version, which SSZ stores at the very end. *)
Definition last_list (v : version) : string :=
  match v with
  | VPhase0 => "current_epoch_attestations"
  | VAltair => "inactivity_scores"
  | VBellatrix => "latest_execution_payload_header"
  | VCapella | VDeneb => "historical_summaries"
  | VElectra | VFulu => "pending_consolidations"
  end.
(** The fields that the accessors of beacon_state.rs:473-680 read, for versions from Altair on. *)
Definition accessed (name : string) : Prop :=
  name = "genesis_validators_root" \/ name = "slot" \/ name = "fork" \/ name = "latest_block_header" \/
  name = "state_roots" \/ name = "historical_roots" \/ name = "validators" \/ name = "balances" \/
  name = "randao_mixes" \/ name = "previous_justified_checkpoint" \/ name = "current_justified_checkpoint" \/
  name = "finalized_checkpoint" \/ name = "previous_epoch_participation" \/ name = "current_epoch_participation".

(** Where the SSZ encoding of a mainnet state has its fixed-size fields, in bytes: offset and length.
    Pointers to variable-size fields (4 bytes each) lie in the gaps. *)
From Coq Require Import List NArith.
Import ListNotations.
Open Scope N_scope.
Definition layout_base : list (string * (N * N)) :=
  [("genesis_time", (0, 8)); ("genesis_validators_root", (8, 32)); ("slot", (40, 8)); ("fork", (48, 16));
   ("latest_block_header", (64, 112)); ("block_roots", (176, 262144)); ("state_roots", (262320, 262144));
   ("eth1_data", (524468, 72)); ("eth1_deposit_index", (524544, 8)); ("randao_mixes", (524560, 2097152));
   ("slashings", (2621712, 65536)); ("justification_bits", (2687256, 1));
   ("previous_justified_checkpoint", (2687257, 40)); ("current_justified_checkpoint", (2687297, 40));
   ("finalized_checkpoint", (2687337, 40))].
Definition layout_altair := [("current_sync_committee", (2687381, 24624)); ("next_sync_committee", (2712005, 24624))].
Definition layout_capella := [("next_withdrawal_index", (2736633, 8)); ("next_withdrawal_validator_index", (2736641, 8))].
Definition layout_electra :=
  [("deposit_requests_start_index", (2736653, 8)); ("deposit_balance_to_consume", (2736661, 8));
   ("exit_balance_to_consume", (2736669, 8)); ("earliest_exit_epoch", (2736677, 8));
   ("consolidation_balance_to_consume", (2736685, 8)); ("earliest_consolidation_epoch", (2736693, 8))].
Definition layout_fulu := [("proposer_lookahead", (2736713, 512))].
Definition layout (v : version) : list (string * (N * N)) :=
  match v with
  | VPhase0 => layout_base
  | VAltair | VBellatrix => layout_base ++ layout_altair
  | VCapella | VDeneb => layout_base ++ layout_altair ++ layout_capella
  | VElectra => layout_base ++ layout_altair ++ layout_capella ++ layout_electra
  | VFulu => layout_base ++ layout_altair ++ layout_capella ++ layout_electra ++ layout_fulu
  end%list.
(** The size of a state without the contents of its variable-size fields. *)
Definition fixed_size (v : version) : N :=
  match v with
  | VPhase0 => 2687377 | VAltair => 2736629 | VBellatrix => 2736633 | VCapella | VDeneb => 2736653
  | VElectra => 2736713 | VFulu => 2737225
  end.

(** The lists of fixed-size elements: size of an element and largest number of elements. *)
Definition registry_limit : N := 2 ^ 40.
Definition lists_base : list (string * (N * N)) :=
  [("historical_roots", (32, 2 ^ 24)); ("eth1_data_votes", (72, 2048)); ("validators", (121, registry_limit));
   ("balances", (8, registry_limit))].
Definition lists_altair :=
  [("previous_epoch_participation", (1, registry_limit)); ("current_epoch_participation", (1, registry_limit));
   ("inactivity_scores", (8, registry_limit))].
Definition lists_capella := [("historical_summaries", (64, 2 ^ 24))].
Definition lists_electra :=
  [("pending_deposits", (192, 2 ^ 27)); ("pending_partial_withdrawals", (24, 2 ^ 27));
   ("pending_consolidations", (16, 2 ^ 18))].
Definition lists (v : version) : list (string * (N * N)) :=
  match v with
  | VPhase0 => lists_base
  | VAltair | VBellatrix => lists_base ++ lists_altair
  | VCapella | VDeneb => lists_base ++ lists_altair ++ lists_capella
  | VElectra | VFulu => lists_base ++ lists_altair ++ lists_capella ++ lists_electra
  end%list.
(** The execution payload header: its size without the extra data. The pointer to the extra data is at
    byte 436. *)
Definition header_size (v : version) : N :=
  match v with VPhase0 | VAltair => 0 | VBellatrix => 536 | VCapella => 568 | _ => 584 end.
Definition header_ok (v : version) (b : bytes) : Prop :=
  header_size v <= blen b <= header_size v + 32 /\
  le_val (firstn 4 (skipn 436 b)) = header_size v.

(** What the bytes of a field of that name must be; [var] says that the field is stored behind the
    places. *)
Definition with_name {A} (name : string) (l : list (string * A)) : option A :=
  option_map snd (List.find (fun x => String.eqb (fst x) name) l).
Definition field_fits (v : version) (name : string) (p : part) : Prop :=
  match with_name name (layout v), with_name name (lists v) with
  | Some (_, len), _ => exists b, p = PFix b /\ blen b = len
  | None, Some (elem, limit) => exists b n, p = PVar b /\ blen b = elem * n /\ n <= limit
  | None, None =>
      if String.eqb name "latest_execution_payload_header" then exists b, p = PVar b /\ header_ok v b
      else exists b, p = PVar b
  end.
