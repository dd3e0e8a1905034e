(** core/src/input_reader/guest_input_reader.rs, core/src/bls.rs and methods/guest/src/lib.rs. *)
From Coq Require Import List NArith Bool.
From Coq.Init Require Import Byte.
From Verif.Model Require Import Base Types ConsensusState Multiproof Gindices Committee Verify.
Import ListNotations.
Open Scope N_scope.

(** guest_input_reader.rs:118-130 [GuestReaderError]; context strings are dropped. *)
Inductive GuestError := GE_Multiproof (e : MPError) | GE_Config | GE_Arith (e : ArithError).

(** guest_input_reader.rs:42-83 [GuestInput]. *)
Record GuestInput := mkGuestInput {
  gi_beacon_block : Multiproof;
  gi_beacon_state : Multiproof;
  gi_active_validators : Multiproof;
  gi_public_keys : list PublicKey;
  gi_patches : bmap StatePatch;
  gi_consensus_state : ConsensusState;
  gi_attestations : list Attestation;
  gi_block_slot_proofs : list Multiproof }.

(** guest_input_reader.rs:108-116 [StateInfo]. *)
Record StateInfo := mkStateInfo {
  si_genesis_validators_root : Root;
  si_slot : Slot;
  si_fork : Fork;
  si_validators_root : Root;
  si_finalized_checkpoint_epoch : Epoch;
  si_earliest_exit_epoch : Epoch;
  si_earliest_consolidation_epoch : Epoch }.

(** guest_input_reader.rs:567-569 [u64_from_chunk::<Leftmost>]. A chunk has 32 bytes. *)
Definition u64_from_chunk (c : bytes) : N := le_val (firstn 8 c).

(** guest_input_reader.rs:572-579 [bool_from_chunk]. *)
Definition bool_from_chunk {E} (c : bytes) : outcome E bool :=
  match c with
  | [] => Panic
  | b :: r => _ <- assert_ (forallb (byte_eqb x00) r) ;;
              match b with x00 => Ok false | x01 => Ok true | _ => Panic end
  end.

(** bls.rs:18-24 [has_compressed_chunks]. *)
Definition has_compressed_chunks (X : Externals) (pk : PublicKey) (chunk1 chunk2 : bytes) : bool :=
  let b := pk_serialize X pk in
  bytes_eqb (firstn 32 b) chunk1
  && bytes_eqb (firstn 16 (skipn 32 b)) (firstn 16 chunk2)
  && bytes_eqb (skipn 16 chunk2) (zero_bytes 16).

(** guest_input_reader.rs:380-390 [extract_beacon_block_multiproof]. *)
Definition extract_beacon_block_multiproof (mp : Multiproof) : outcome MPError Root :=
  '(sr, rest) <- next_assert_gindex (mp_values mp) state_root_gindex ;;
  _ <- assert_ (match rest with [] => true | _ => false end) ;;
  Ok sr.

(** guest_input_reader.rs:393-427 [extract_beacon_state_multiproof]. *)
Definition extract_beacon_state_multiproof (mp : Multiproof) : outcome MPError StateInfo :=
  '(gvr, v) <- next_assert_gindex (mp_values mp) genesis_validators_root_gindex ;;
  '(slot, v) <- next_assert_gindex v slot_gindex ;;
  '(fpv, v) <- next_assert_gindex v fork_previous_version_gindex ;;
  '(fcv, v) <- next_assert_gindex v fork_current_version_gindex ;;
  '(fe, v) <- next_assert_gindex v fork_epoch_gindex ;;
  '(vr, v) <- next_assert_gindex v validators_gindex ;;
  '(fce, v) <- next_assert_gindex v finalized_checkpoint_epoch_gindex ;;
  '(eee, v) <- next_assert_gindex v earliest_exit_epoch_gindex ;;
  '(ece, v) <- next_assert_gindex v earliest_consolidation_epoch_gindex ;;
  _ <- assert_ (match v with [] => true | _ => false end) ;;
  Ok (mkStateInfo gvr (u64_from_chunk slot)
        (mkFork (firstn 4 fpv) (firstn 4 fcv) (u64_from_chunk fe))
        vr (u64_from_chunk fce) (u64_from_chunk eee) (u64_from_chunk ece)).

(** [values.next().ok_or(MissingValue)?] followed by [assert_eq!(gindex, g)]. *)
Definition next_checked (vals : list (N * bytes)) (g : N)
  : outcome MPError (bytes * list (N * bytes)) :=
  match vals with
  | [] => Err MissingValue
  | (g', c) :: rest => _ <- assert_ (g' =? g) ;; Ok (c, rest)
  end.

(** guest_input_reader.rs:458-507: one not-exited validator. Returns the record, the remaining
    values and the remaining keys. Order of the checks follows the source. *)
Definition extract_one (X : Externals) (vals : list (N * bytes)) (pks : list PublicKey) (i : N)
  : outcome MPError (ValidatorInfo * list (N * bytes) * list PublicKey) :=
  match pks with
  | [] => Panic
  | pk :: pks' =>
      '(p1, v) <- next_checked vals (public_key_0_gindex i) ;;
      '(p2, v) <- next_checked v (public_key_1_gindex i) ;;
      _ <- assert_ (has_compressed_chunks X pk p1 p2) ;;
      '(eb, v) <- next_checked v (effective_balance_gindex i) ;;
      '(sl, v) <- next_checked v (slashed_gindex i) ;;
      slb <- bool_from_chunk sl ;;
      '(ae, v) <- next_checked v (activation_eligibility_epoch_gindex i) ;;
      '(ac, v) <- next_checked v (activation_epoch_gindex i) ;;
      '(ex, v) <- next_checked v (exit_epoch_gindex i) ;;
      Ok (mkValidatorInfo pk (u64_from_chunk eb) slb (u64_from_chunk ae) (u64_from_chunk ac)
            (u64_from_chunk ex), v, pks')
  end.

(** guest_input_reader.rs:445-519: the loop. Every iteration consumes at least one value, so
    [length vals + 1] is enough fuel; running out is a [Panic] that never happens (proved).
    [validator_index] is not wrapped: wrapping would need 2^32 proven values in memory. *)
Fixpoint extract_loop (X : Externals) (fuel : nat) (cur : Epoch) (vals : list (N * bytes))
         (pks : list PublicKey) (i : N) (cache : bmap ValidatorInfo)
  : outcome MPError (bmap ValidatorInfo) :=
  match fuel with
  | O => Panic
  | S fuel' =>
      match vals with
      | [] => Err MissingValue
      | (g, c) :: rest =>
          if g =? 3 then
            _ <- assert_ (i =? u64_from_chunk c) ;;
            _ <- assert_ (match rest with [] => true | _ => false end) ;;
            Ok cache
          else if g =? exit_epoch_gindex i then
            _ <- assert_ (u64_from_chunk c <=? cur) ;;
            extract_loop X fuel' cur rest pks (i + 1) cache
          else
            '(vi, v', pks') <- extract_one X vals pks i ;;
            extract_loop X fuel' cur v' pks' (i + 1) (bm_insert cache i vi)
      end
  end.

(** guest_input_reader.rs:434-520 [extract_validators_multiproof]. *)
Definition extract_validators_multiproof (X : Externals) (mp : Multiproof) (pks : list PublicKey)
           (cur : Epoch) : outcome MPError (bmap ValidatorInfo) :=
  let vals := mp_values mp in
  extract_loop X (S (length vals)) cur vals pks 0 [].

(** guest_input_reader.rs:534-541: the two consecutive [if]s on one validator. *)
Definition registry_update_validator (cs : ChainSpec) (fin cur act : Epoch) (v : ValidatorInfo)
  : ValidatorInfo :=
  let v1 := if is_eligible_for_activation_queue cs v
            then mkValidatorInfo (pubkey v) (effective_balance v) (slashed v) (sat_add cur 1)
                   (activation_epoch v) (exit_epoch v)
            else v in
  if is_eligible_for_activation cs fin v1
  then mkValidatorInfo (pubkey v1) (effective_balance v1) (slashed v1)
         (activation_eligibility_epoch v1) act (exit_epoch v1)
  else v1.

(** guest_input_reader.rs:525-543 [process_registry_updates]. *)
Definition process_registry_updates {E} (cs : ChainSpec) (reg : bmap ValidatorInfo) (fin cur : Epoch)
  : outcome E (bmap ValidatorInfo) :=
  act <- unwrap (compute_activation_exit_epoch (fun e => e) cs cur) ;;
  Ok (map (fun kv => (fst kv, registry_update_validator cs fin cur act (snd kv))) reg).

(** [a..=b] as a list. *)
Definition epoch_range (a b : N) : list N :=
  map (fun k => a + N.of_nat k) (seq 0 (N.to_nat (b + 1 - a))).

(** guest_input_reader.rs:192-203: registry updates between the state and the justified epoch. *)
Definition registry_loop {E} (cs : ChainSpec) (state_fin trusted cj state_epoch : Epoch)
           (reg : bmap ValidatorInfo) : outcome E (bmap ValidatorInfo) :=
  fold_outcome (fun r e => process_registry_updates cs r (if e <? cj then state_fin else trusted) e)
               (epoch_range state_epoch cj) reg.

(** guest_input_reader.rs:545-552 [get_balance_churn_limit]. *)
Definition get_balance_churn_limit (cs : ChainSpec) (total : N) : outcome GuestError N :=
  d <- safe_div GE_Arith total (churn_limit_quotient cs) ;;
  let churn := N.max (min_per_epoch_churn_limit_electra cs) d in
  r <- safe_rem GE_Arith churn (effective_balance_increment cs) ;;
  safe_sub GE_Arith churn r.

(** [sorted_unstable_by_key] on the exit epoch. The order of equal keys is unspecified in Rust;
    here it is the stable order (the result is proved not to depend on it). *)
Fixpoint insert_by_epoch (x : N * Epoch) (l : list (N * Epoch)) : list (N * Epoch) :=
  match l with
  | [] => [x]
  | y :: r => if snd x <=? snd y then x :: l else y :: insert_by_epoch x r
  end.
Definition sort_exits (l : list (N * Epoch)) : list (N * Epoch) := fold_right insert_by_epoch [] l.

(** guest_input_reader.rs:285-309: one patched exit. State: (budget, earliest_exit_epoch).
    [patch_epoch - 1] saturates; [+=] and [*] wrap. *)
Definition validate_exit (cs : ChainSpec) (patches : bmap StatePatch) (validators : bmap ValidatorInfo)
           (churn : N) (patch_epoch : Epoch) (st : N * Epoch) (x : ValidatorIndex * Epoch)
  : outcome GuestError (N * Epoch) :=
  let '(budget, earliest) := st in
  let '(idx, ex) := x in
  v <- expect (bm_get validators idx) ;;
  let prev := match bm_get patches (sat_sub patch_epoch 1) with
              | Some p => match bm_get (validator_exits p) idx with
                          | Some e => e | None => exit_epoch v end
              | None => exit_epoch v
              end in
  if prev =? ex then Ok st else
  _ <- assert_ (prev =? far_future_epoch cs) ;;
  _ <- assert_ (earliest <=? ex) ;;
  let budget' := wrap64 (budget + wrap64 (sat_sub ex earliest * churn)) in
  _ <- assert_ (effective_balance v <=? budget') ;;
  Ok (budget' - effective_balance v, ex).

(** guest_input_reader.rs:265-311: one patch; the budget starts again at [churn]. *)
Definition validate_patch (cs : ChainSpec) (patches : bmap StatePatch) (validators : bmap ValidatorInfo)
           (churn : N) (trusted : Epoch) (earliest : Epoch) (kp : Epoch * StatePatch)
  : outcome GuestError Epoch :=
  let '(pe, p) := kp in
  _ <- assert_ (trusted <=? pe) ;;
  '(_, earliest') <- fold_outcome (validate_exit cs patches validators churn pe)
                       (sort_exits (validator_exits p)) (churn, earliest) ;;
  Ok earliest'.

(** guest_input_reader.rs:241-262: total balance, churn and the initial earliest exit epoch. *)
Definition patch_params (cs : ChainSpec) (trusted : Epoch) (si : StateInfo)
           (validators : bmap ValidatorInfo) : outcome GuestError (N * Epoch) :=
  total <- get_total_balance GE_Arith cs
             (filter (fun v => is_active_at v trusted) (bm_values validators)) ;;
  c <- get_balance_churn_limit cs total ;;
  churn <- safe_mul GE_Arith c 2 ;;
  act <- compute_activation_exit_epoch GE_Arith cs trusted ;;
  Ok (churn, N.max (N.min (si_earliest_exit_epoch si) (si_earliest_consolidation_epoch si)) act).

(** guest_input_reader.rs:233-314 [validate_state_patches]. *)
Definition validate_state_patches (cs : ChainSpec) (patches : bmap StatePatch) (trusted : Epoch)
           (si : StateInfo) (validators : bmap ValidatorInfo) : outcome GuestError unit :=
  '(churn, earliest) <- patch_params cs trusted si validators ;;
  _ <- fold_outcome (validate_patch cs patches validators churn trusted) patches earliest ;;
  Ok tt.

(** guest_input_reader.rs:208-219: block root -> slot map. *)
Definition block_slots_step (X : Externals) (m : rmap N) (mp : Multiproof) : outcome GuestError (rmap N) :=
  r <- map_err GE_Multiproof (calculate_root (sha256 X) mp) ;;
  '(s, _) <- map_err GE_Multiproof (next_assert_gindex (mp_values mp) block_slot_gindex) ;;
  Ok (rm_insert m r (u64_from_chunk s)).

(** guest_input_reader.rs:85-104 [GuestInputReader]. *)
Record GuestInputReader := mkGuestReader {
  gr_spec : ChainSpec;
  gr_genesis_validators_root : Root;
  gr_validators : bmap ValidatorInfo;
  gr_patches : bmap StatePatch;
  gr_consensus_state : ConsensusState;
  gr_attestations : list Attestation;
  gr_block_slots : rmap N }.

(** guest_input_reader.rs:149-231 [into_reader]. *)
Definition into_reader (X : Externals) (cs : ChainSpec) (gi : GuestInput)
  : outcome GuestError GuestInputReader :=
  let st := gi_consensus_state gi in
  let trusted := finalized st in
  _ <- map_err GE_Multiproof (mp_verify (sha256 X) (gi_beacon_block gi) (root trusted)) ;;
  state_root <- map_err GE_Multiproof (extract_beacon_block_multiproof (gi_beacon_block gi)) ;;
  _ <- map_err GE_Multiproof (mp_verify (sha256 X) (gi_beacon_state gi) state_root) ;;
  si <- map_err GE_Multiproof (extract_beacon_state_multiproof (gi_beacon_state gi)) ;;
  _ <- map_err GE_Multiproof (mp_verify (sha256 X) (gi_active_validators gi) (si_validators_root si)) ;;
  vals <- map_err GE_Multiproof
            (extract_validators_multiproof X (gi_active_validators gi) (gi_public_keys gi) (epoch trusted)) ;;
  let state_epoch := epoch_of_slot cs (si_slot si) in
  _ <- ensure (fork_eqb (si_fork si) (fork_at_epoch cs state_epoch)) GE_Config ;;
  let cj := epoch (current_justified st) in
  vals' <- registry_loop cs (si_finalized_checkpoint_epoch si) (epoch trusted) cj state_epoch vals ;;
  _ <- validate_state_patches cs (gi_patches gi) (epoch trusted) si vals' ;;
  bs <- fold_outcome (block_slots_step X) (gi_block_slot_proofs gi) [] ;;
  Ok (mkGuestReader cs (si_genesis_validators_root si) vals' (gi_patches gi) st
        (gi_attestations gi) bs).

Definition patch_at (patches : bmap StatePatch) (e : Epoch) : StatePatch :=
  match bm_get patches e with Some p => p | None => EMPTY_STATE_PATCH end.

(** guest_input_reader.rs:317-374: the [InputReader] implementation. *)
Definition guest_reader (g : GuestInputReader) : Reader := {|
  rd_chain_spec := gr_spec g;
  rd_genesis_validators_root := Ok (gr_genesis_validators_root g);
  rd_fork := fun e => Ok (fork_at_epoch (gr_spec g) e);
  rd_active_validators := fun e =>
    Ok (filter (fun kv => patch_is_active_validator (patch_at (gr_patches g) e) (fst kv) (snd kv) e)
               (gr_validators g));
  rd_randao_mix := fun e i => Ok (bm_get (randao_mixes (patch_at (gr_patches g) e)) i);
  rd_attestations := Ok (gr_attestations g);
  rd_consensus_state := Ok (gr_consensus_state g);
  rd_slot_for_block := fun r => ok_or (rm_get (gr_block_slots g) r) RE_Config |}.
