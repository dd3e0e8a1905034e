(** host/src/beacon_state.rs: the versioned beacon state, its accessors and its SSZ serialization (the
    content of the state files of Model/HostStore.v). A state is a version with the list of its
    fields, and a field is identified with its SSZ encoding. *)
From Coq Require Import String List NArith Bool.
From Coq.Init Require Import Byte.
From Verif.Model Require Import Base.
Import ListNotations.
Open Scope list_scope.
Open Scope N_scope.

(** ** SSZ containers *)
(** The SSZ encoding of containers (external, [ssz_rs]; written out from the SSZ specification): a
    fixed-size field is stored in place, a variable-size field as a 4-byte offset in place and its
    encoding behind all the places. *)
Inductive part := PFix (b : bytes) | PVar (b : bytes).
Definition part_bytes (p : part) : bytes := match p with PFix b => b | PVar b => b end.
Definition blen (b : bytes) : N := N.of_nat (length b).
Definition place_size (p : part) : N := match p with PFix b => blen b | PVar _ => 4 end.
Definition places_size (ps : list part) : N := fold_right (fun p n => place_size p + n) 0 ps.
(** The places; [off] is where the next variable-size field goes. *)
Fixpoint places (off : N) (ps : list part) : bytes :=
  match ps with
  | [] => []
  | PFix b :: r => b ++ places off r
  | PVar b :: r => le_bytes 4 off ++ places (off + blen b) r
  end.
Fixpoint contents (ps : list part) : bytes :=
  match ps with
  | [] => []
  | PFix _ :: r => contents r
  | PVar b :: r => b ++ contents r
  end.
Definition encode_container (ps : list part) : bytes := places (places_size ps) ps ++ contents ps.

(** Decoding. A shape gives the size of each fixed-size field and [None] for a variable-size one.
    First the places are cut off, then the contents between consecutive offsets. The first offset has
    to point behind the places, offsets must not decrease or point outside. *)
Definition shape := list (option N).
Fixpoint cut_places (sh : shape) (b : bytes) : option (list (bytes + N) * bytes) :=
  match sh with
  | [] => Some ([], b)
  | o :: r =>
      let n := match o with Some n => n | None => 4 end in
      if blen b <? n then None else
      let x := firstn (N.to_nat n) b in
      match cut_places r (skipn (N.to_nat n) b) with
      | Some (l, rest) => Some ((match o with Some _ => inl x | None => inr (le_val x) end) :: l, rest)
      | None => None
      end
  end.
Fixpoint next_offset (l : list (bytes + N)) (total : N) : N :=
  match l with
  | [] => total
  | inl _ :: r => next_offset r total
  | inr o :: r => o
  end.
Fixpoint cut_contents (pos total : N) (l : list (bytes + N)) (rest : bytes) : option (list part) :=
  match l with
  | [] => match rest with [] => Some [] | _ => None end
  | inl b :: r => match cut_contents pos total r rest with Some ps => Some (PFix b :: ps) | None => None end
  | inr o :: r =>
      let e := next_offset r total in
      if (o =? pos) && (o <=? e) && (e - o <=? blen rest)
      then match cut_contents e total r (skipn (N.to_nat (e - o)) rest) with
           | Some ps => Some (PVar (firstn (N.to_nat (e - o)) rest) :: ps)
           | None => None
           end
      else None
  end.
Definition shape_size (sh : shape) : N :=
  fold_right (fun o n => match o with Some k => k | None => 4 end + n) 0 sh.
Definition decode_container (sh : shape) (b : bytes) : option (list part) :=
  match cut_places sh b with
  | Some (l, rest) => cut_contents (shape_size sh) (blen b) l rest
  | None => None
  end.

(** ** Field types *)
(** [FList elem limit]: a list of at most [limit] elements of [elem] bytes. [FBytes]: a list of
    variable-size elements, whose inner structure is not modelled. [FSub]: a container of fixed-size
    fields and lists of at most 32 bytes. Not modelled: values that are not allowed inside a fixed-size element (a
    boolean other than 0 and 1, set padding bits). *)
Inductive fty :=
| FFix (n : N)
| FList (elem limit : N)
| FBytes
| FSub (fields : list (option N)).
Definition fty_size (t : fty) : option N := match t with FFix n => Some n | _ => None end.
Definition field_ok (t : fty) (p : part) : bool :=
  match t, p with
  | FFix n, PFix b => blen b =? n
  | FList elem limit, PVar b => (blen b mod elem =? 0) && (blen b / elem <=? limit)
  | FBytes, PVar _ => true
  | FSub sh, PVar b => match decode_container sh b with
                       | Some ps => forallb (fun q => match q with PVar x => blen x <=? 32 | PFix _ => true end) ps
                       | None => false
                       end
  | _, _ => false
  end.
Fixpoint fields_ok (ts : list fty) (ps : list part) : bool :=
  match ts, ps with
  | [], [] => true
  | t :: ts', p :: ps' => field_ok t p && fields_ok ts' ps'
  | _, _ => false
  end.

(** ** Beacon states *)
(** beacon_state.rs:347-436, the enum in declaration order. *)
Inductive version := VPhase0 | VAltair | VBellatrix | VCapella | VDeneb | VElectra | VFulu.
Definition all_versions : list version := [VPhase0; VAltair; VBellatrix; VCapella; VDeneb; VElectra; VFulu].

(** The mainnet preset. Electra and Fulu: beacon_state.rs:152-208 and 248-308; the others are those of
    [ethereum_consensus] (external, written out from the consensus specification). *)
Definition base_fields : list (string * fty) :=
  [("genesis_time", FFix 8); ("genesis_validators_root", FFix 32); ("slot", FFix 8); ("fork", FFix 16);
   ("latest_block_header", FFix 112); ("block_roots", FFix 262144); ("state_roots", FFix 262144);
   ("historical_roots", FList 32 16777216); ("eth1_data", FFix 72); ("eth1_data_votes", FList 72 2048);
   ("eth1_deposit_index", FFix 8); ("validators", FList 121 1099511627776);
   ("balances", FList 8 1099511627776); ("randao_mixes", FFix 2097152); ("slashings", FFix 65536)]%string.
Definition checkpoint_fields : list (string * fty) :=
  [("justification_bits", FFix 1); ("previous_justified_checkpoint", FFix 40);
   ("current_justified_checkpoint", FFix 40); ("finalized_checkpoint", FFix 40)]%string.
Definition phase0_fields :=
  base_fields ++ [("previous_epoch_attestations", FBytes); ("current_epoch_attestations", FBytes)]%string
              ++ checkpoint_fields.
Definition altair_fields :=
  base_fields ++ [("previous_epoch_participation", FList 1 1099511627776);
                  ("current_epoch_participation", FList 1 1099511627776)]%string
              ++ checkpoint_fields
              ++ [("inactivity_scores", FList 8 1099511627776);
                  ("current_sync_committee", FFix 24624); ("next_sync_committee", FFix 24624)]%string.
(** parent_hash, fee_recipient, state_root, receipts_root, logs_bloom, prev_randao, block_number,
    gas_limit, gas_used, timestamp, extra_data, base_fee_per_gas, block_hash, transactions_root. *)
Definition bellatrix_header : shape :=
  [Some 32; Some 20; Some 32; Some 32; Some 256; Some 32; Some 8; Some 8; Some 8; Some 8; None; Some 32; Some 32; Some 32].
(** withdrawals_root. *)
Definition capella_header : shape := bellatrix_header ++ [Some 32].
(** blob_gas_used, excess_blob_gas. *)
Definition deneb_header : shape := capella_header ++ [Some 8; Some 8].
Definition payload (sh : shape) : list (string * fty) := [("latest_execution_payload_header", FSub sh)]%string.
Definition withdrawal_fields : list (string * fty) :=
  [("next_withdrawal_index", FFix 8); ("next_withdrawal_validator_index", FFix 8);
   ("historical_summaries", FList 64 16777216)]%string.
Definition electra_fields : list (string * fty) :=
  [("deposit_requests_start_index", FFix 8); ("deposit_balance_to_consume", FFix 8);
   ("exit_balance_to_consume", FFix 8); ("earliest_exit_epoch", FFix 8);
   ("consolidation_balance_to_consume", FFix 8); ("earliest_consolidation_epoch", FFix 8);
   ("pending_deposits", FList 192 134217728); ("pending_partial_withdrawals", FList 24 134217728);
   ("pending_consolidations", FList 16 262144)]%string.
Definition fields (v : version) : list (string * fty) :=
  match v with
  | VPhase0 => phase0_fields
  | VAltair => altair_fields
  | VBellatrix => altair_fields ++ payload bellatrix_header
  | VCapella => altair_fields ++ payload capella_header ++ withdrawal_fields
  | VDeneb => altair_fields ++ payload deneb_header ++ withdrawal_fields
  | VElectra => altair_fields ++ payload deneb_header ++ withdrawal_fields ++ electra_fields
  | VFulu => altair_fields ++ payload deneb_header ++ withdrawal_fields ++ electra_fields
               ++ [("proposer_lookahead", FFix 512)]%string
  end.
Definition field_types (v : version) : list fty := map snd (fields v).
Definition state_shape (v : version) : shape := map fty_size (field_types v).

Record BState := mkBState { bs_version : version; bs_fields : list part }.
(** The values of the Rust type. *)
Definition state_ok (st : BState) : bool := fields_ok (field_types (bs_version st)) (bs_fields st).

(** [Serializable] with [#[ssz(transparent)]] (beacon_state.rs:311-323): the bytes of the inner state,
    without a tag. *)
Definition encode_state (st : BState) : bytes := encode_container (bs_fields st).
Definition decode_version (v : version) (b : bytes) : option BState :=
  match decode_container (state_shape v) b with
  | Some ps => if fields_ok (field_types v) ps then Some (mkBState v ps) else None
  | None => None
  end.
(** Deserialization tries the variants one after the other; [order] is the order (that of the
    declaration in the derived code). *)
Fixpoint decode_state (order : list version) (b : bytes) : option BState :=
  match order with
  | [] => None
  | v :: r => match decode_version v b with Some st => Some st | None => decode_state r b end
  end.

(** ** Accessors, beacon_state.rs:473-680 *)
Fixpoint lookup (fs : list (string * fty)) (ps : list part) (name : string) : option bytes :=
  match fs, ps with
  | (n, _) :: fs', p :: ps' => if String.eqb n name then Some (part_bytes p) else lookup fs' ps' name
  | _, _ => None
  end.
(** The field of that name; [None] where the version has no such field (or, for ill-formed states,
    where the field is missing). *)
Definition field (st : BState) (name : string) : option bytes := lookup (fields (bs_version st)) (bs_fields st) name.
(** beacon_state.rs:496-506 [slot]. *)
Definition bs_slot (st : BState) : N := match field st "slot" with Some b => le_val b | None => 0 end.
