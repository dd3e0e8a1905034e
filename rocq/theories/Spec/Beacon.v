(** Beacon chain containers as SSZ Merkle trees, and SSZ generalized indices, written from the
    consensus specification (ssz/simple-serialize.md, ssz/merkle-proofs.md, phase0 to fulu
    beacon-chain.md). *)
From Coq Require Import List Arith NArith Bool String.
From Verif.Model Require Import Base Types.
From Verif.Spec Require Import Merkle Ssz.
Import ListNotations.
Open Scope N_scope.

(** ** Trees *)
Fixpoint take {A} (n : N) (l : list A) : list A :=
  match l with [] => [] | x :: r => if n =? 0 then [] else x :: take (n - 1) r end.
Fixpoint drop {A} (n : N) (l : list A) : list A :=
  match l with [] => [] | x :: r => if n =? 0 then l else drop (n - 1) r end.

(** Root of a tree of depth [d] with only zero chunks. *)
Fixpoint zero_root (H : bytes -> bytes) (d : nat) : bytes :=
  match d with O => repeat Byte.x00 32 | S d' => let z := zero_root H d' in H (z ++ z) end.
(** The tree of depth [d] with subtrees [items] from the left; empty subtrees are represented by
    their root. *)
Fixpoint fill (H : bytes -> bytes) (d : nat) (items : list mtree) : mtree :=
  match items with
  | [] => MLeaf (zero_root H d)
  | x :: _ =>
      match d with
      | O => x
      | S d' => MNode (fill H d' (take (2 ^ N.of_nat d') items)) (fill H d' (drop (2 ^ N.of_nat d') items))
      end
  end.
Definition container_tree (H : bytes -> bytes) (fields : list mtree) : mtree :=
  fill H (Nat.log2_up (List.length fields)) fields.
(** A list of at most 2^d composite elements, with its length mixed in. *)
Definition list_tree (H : bytes -> bytes) (d : nat) (items : list mtree) : mtree :=
  MNode (fill H d items) (MLeaf (ssz_u64 (N.of_nat (List.length items)))).
Definition u64_tree (x : N) : mtree := MLeaf (ssz_u64 x).
Definition bool_tree (b : bool) : mtree := MLeaf (chunk 1 [if b then Byte.x01 else Byte.x00]).
(** ByteVector[48]. *)
Definition bytes48_tree (b : bytes) : mtree := MNode (MLeaf (firstn 32 b)) (MLeaf (chunk 16 (skipn 32 b))).

(** ** Containers *)
(** phase0 BeaconBlockHeader; a block has the same root, its body being opened further. *)
Record Header := mkHeader {
  hd_slot : N; hd_proposer_index : N; hd_parent_root : bytes; hd_state_root : bytes; hd_body : mtree }.
Definition header_tree (H : bytes -> bytes) (h : Header) : mtree :=
  container_tree H [u64_tree (hd_slot h); u64_tree (hd_proposer_index h); MLeaf (hd_parent_root h);
                    MLeaf (hd_state_root h); hd_body h].
(** phase0 Validator. *)
Record Validator := mkValidator {
  v_pubkey : bytes; v_withdrawal_credentials : bytes; v_effective_balance : N; v_slashed : bool;
  v_activation_eligibility_epoch : N; v_activation_epoch : N; v_exit_epoch : N; v_withdrawable_epoch : N }.
Definition validator_tree (H : bytes -> bytes) (v : Validator) : mtree :=
  container_tree H [bytes48_tree (v_pubkey v); MLeaf (v_withdrawal_credentials v);
    u64_tree (v_effective_balance v); bool_tree (v_slashed v); u64_tree (v_activation_eligibility_epoch v);
    u64_tree (v_activation_epoch v); u64_tree (v_exit_epoch v); u64_tree (v_withdrawable_epoch v)].
(** List[Validator, 2^40]. *)
Definition registry_tree (H : bytes -> bytes) (vs : list Validator) : mtree :=
  list_tree H 40 (map (validator_tree H) vs).
Definition fork_tree (H : bytes -> bytes) (f : Fork) : mtree :=
  container_tree H [MLeaf (chunk 4 (previous_version f)); MLeaf (chunk 4 (current_version f)); u64_tree (fork_epoch f)].
Definition checkpoint_tree (H : bytes -> bytes) (c : Checkpoint) : mtree :=
  container_tree H [u64_tree (epoch c); MLeaf (root c)].
(** electra BeaconState (37 fields), and fulu BeaconState which appends proposer_lookahead. The
    fields the guest does not use are arbitrary subtrees, numbered by their position. *)
Record State := mkState {
  st_fulu : bool;
  st_genesis_validators_root : bytes;
  st_slot : N;
  st_fork : Fork;
  st_validators : list Validator;
  st_finalized : Checkpoint;
  st_earliest_exit_epoch : N;
  st_earliest_consolidation_epoch : N;
  st_other : N -> mtree }.
Definition state_fields (H : bytes -> bytes) (s : State) : list mtree :=
  let o := st_other s in
  [o 0; MLeaf (st_genesis_validators_root s); u64_tree (st_slot s); fork_tree H (st_fork s); o 4; o 5; o 6; o 7;
   o 8; o 9; o 10; registry_tree H (st_validators s); o 12; o 13; o 14; o 15;
   o 16; o 17; o 18; o 19; checkpoint_tree H (st_finalized s); o 21; o 22; o 23;
   o 24; o 25; o 26; o 27; o 28; o 29; o 30; u64_tree (st_earliest_exit_epoch s);
   o 32; u64_tree (st_earliest_consolidation_epoch s); o 34; o 35; o 36]
  ++ (if st_fulu s then [o 37] else []).
Definition state_tree (H : bytes -> bytes) (s : State) : mtree := container_tree H (state_fields H s).

(** Values in range of their types. *)
Definition wf_validator (v : Validator) : Prop :=
  List.length (v_pubkey v) = 48%nat /\ List.length (v_withdrawal_credentials v) = 32%nat /\
  v_effective_balance v < 2 ^ 64 /\ v_activation_eligibility_epoch v < 2 ^ 64 /\
  v_activation_epoch v < 2 ^ 64 /\ v_exit_epoch v < 2 ^ 64 /\ v_withdrawable_epoch v < 2 ^ 64.
Definition wf_registry (vs : list Validator) : Prop :=
  Forall wf_validator vs /\ N.of_nat (List.length vs) <= 2 ^ 40.
Definition wf_header (h : Header) : Prop :=
  hd_slot h < 2 ^ 64 /\ hd_proposer_index h < 2 ^ 64 /\ List.length (hd_parent_root h) = 32%nat /\
  List.length (hd_state_root h) = 32%nat /\ wf_tree (hd_body h).
Definition wf_fork (f : Fork) : Prop :=
  List.length (previous_version f) = 4%nat /\ List.length (current_version f) = 4%nat /\ fork_epoch f < 2 ^ 64.
Definition wf_state (s : State) : Prop :=
  List.length (st_genesis_validators_root s) = 32%nat /\ st_slot s < 2 ^ 64 /\ wf_fork (st_fork s) /\
  wf_registry (st_validators s) /\ epoch (st_finalized s) < 2 ^ 64 /\ List.length (root (st_finalized s)) = 32%nat /\
  st_earliest_exit_epoch s < 2 ^ 64 /\ st_earliest_consolidation_epoch s < 2 ^ 64 /\
  (forall k, wf_tree (st_other s k)).

(** ** Generalized indices (ssz/merkle-proofs.md) *)
Local Open Scope string_scope.
Local Open Scope N_scope.
Inductive ssz_type :=
| TUint64 | TBool
| TBytes (n : N)                                   (* ByteVector[n] *)
| TContainer (fields : list (string * ssz_type))
| TList (elem : ssz_type) (limit : N)              (* of composite elements *)
| TOther.                                          (* never entered by a path below *)
Inductive path_elem := Field (name : string) | Index (i : N) | Length.

Definition chunk_count (t : ssz_type) : N :=
  match t with
  | TBytes n => (n + 31) / 32
  | TContainer fs => N.of_nat (List.length fs)
  | TList _ limit => limit
  | _ => 1
  end.
Fixpoint find_field (fs : list (string * ssz_type)) (name : string) (pos : N) : option (N * ssz_type) :=
  match fs with
  | [] => None
  | (n, t) :: r => if String.eqb n name then Some (pos, t) else find_field r name (pos + 1)
  end.
(** get_item_position and get_elem_type. *)
Definition item (t : ssz_type) (p : path_elem) : option (N * ssz_type) :=
  match t, p with
  | TContainer fs, Field name => find_field fs name 0
  | TList e limit, Index i => if i <? limit then Some (i, e) else None
  | TBytes n, Index i => if i <? n then Some (i / 32, TOther) else None
  | _, _ => None
  end.
Definition power_of_two_ceil (n : N) : N := 2 ^ N.log2_up n.
(** get_generalized_index. *)
Fixpoint generalized_index (t : ssz_type) (p : list path_elem) (root : N) : option N :=
  match p with
  | [] => Some root
  | Length :: r => match t with TList _ _ => generalized_index TUint64 r (root * 2 + 1) | _ => None end
  | x :: r =>
      match item t x with
      | Some (pos, t') =>
          let base := match t with TList _ _ => 2 | _ => 1 end in
          generalized_index t' r (root * base * power_of_two_ceil (chunk_count t) + pos)
      | None => None
      end
  end.

Definition T_fork : ssz_type :=
  TContainer [("previous_version", TBytes 4); ("current_version", TBytes 4); ("epoch", TUint64)].
Definition T_checkpoint : ssz_type := TContainer [("epoch", TUint64); ("root", TBytes 32)].
Definition T_header : ssz_type :=
  TContainer [("slot", TUint64); ("proposer_index", TUint64); ("parent_root", TBytes 32);
              ("state_root", TBytes 32); ("body_root", TBytes 32)].
Definition T_validator : ssz_type :=
  TContainer [("public_key", TBytes 48); ("withdrawal_credentials", TBytes 32); ("effective_balance", TUint64);
              ("slashed", TBool); ("activation_eligibility_epoch", TUint64); ("activation_epoch", TUint64);
              ("exit_epoch", TUint64); ("withdrawable_epoch", TUint64)].
Definition T_validators : ssz_type := TList T_validator (2 ^ 40).
Definition electra_fields : list (string * ssz_type) :=
  [("genesis_time", TUint64); ("genesis_validators_root", TBytes 32); ("slot", TUint64); ("fork", T_fork);
   ("latest_block_header", T_header); ("block_roots", TOther); ("state_roots", TOther);
   ("historical_roots", TOther); ("eth1_data", TOther); ("eth1_data_votes", TOther);
   ("eth1_deposit_index", TUint64); ("validators", T_validators); ("balances", TOther);
   ("randao_mixes", TOther); ("slashings", TOther); ("previous_epoch_participation", TOther);
   ("current_epoch_participation", TOther); ("justification_bits", TOther);
   ("previous_justified_checkpoint", T_checkpoint); ("current_justified_checkpoint", T_checkpoint);
   ("finalized_checkpoint", T_checkpoint); ("inactivity_scores", TOther); ("current_sync_committee", TOther);
   ("next_sync_committee", TOther); ("latest_execution_payload_header", TOther);
   ("next_withdrawal_index", TUint64); ("next_withdrawal_validator_index", TUint64);
   ("historical_summaries", TOther); ("deposit_requests_start_index", TUint64);
   ("deposit_balance_to_consume", TUint64); ("exit_balance_to_consume", TUint64);
   ("earliest_exit_epoch", TUint64); ("consolidation_balance_to_consume", TUint64);
   ("earliest_consolidation_epoch", TUint64); ("pending_deposits", TOther);
   ("pending_partial_withdrawals", TOther); ("pending_consolidations", TOther)].
Definition T_electra_state : ssz_type := TContainer electra_fields.
Definition T_fulu_state : ssz_type := TContainer (electra_fields ++ [("proposer_lookahead", TOther)]).
