(** host/src/input_reader/preflight_input_reader.rs, host/src/state_patch_builder.rs,
    host/src/input_reader/host_input_reader.rs (the [InputReader] implementation) and the
    [prepare_input] function of host/src/bin/zkasper_cli.rs: how the host turns beacon states into a
    guest input.

    The containers of the crate ethereum_consensus are the records of Spec/Beacon.v; their
    [hash_tree_root] is the root of the SSZ tree given there, [T::generalized_index] is the
    [generalized_index] given there, and the nodes that ssz_rs hands to the proof builder are the
    nodes of that tree. ssz_rs itself is not modelled. *)
From Coq Require Import List NArith Bool String.
From Verif.Model Require Import Base Types ConsensusState Multiproof Builder Committee Verify GuestReader HostChain HostStore.
From Verif.Spec Require Import Merkle MultiproofSpec Ssz Beacon.
Import ListNotations.
Open Scope string_scope.
Open Scope list_scope.
Open Scope N_scope.

(** host/src/beacon_state.rs [BeaconState]: the fields used here. [hs_supported] says that the state
    is of the Electra or the Fulu variant; for other variants only that flag matters. *)
Record HState := mkHState {
  hs_supported : bool;
  hs_state : State;
  hs_header : Header;                 (* latest_block_header *)
  hs_randao_mixes : list bytes }.

(** [anyhow::Error]; the text is not modelled. *)
Inductive HIError :=
| HI_Provider (e : ProviderError)
| HI_Reader (e : ReaderError)
| HI_Chain (code : N)
| HI_Host (e : HostError)
| HI_Build                            (* ssz_rs: no such node *)
| HI_Proof (e : MPError)
| HI_Version
| HI_NoMix
| HI_NoBlock
| HI_Preflight (e : VerifyError).

(** builder.rs:54-58 [with_path]. *)
Definition with_path {E} (T : ssz_type) (b : list N) (p : list path_elem) : outcome E (list N) :=
  g <- expect (generalized_index T p 1) ;; Ok (bs_insert b g).
(** A chain of [with_path] calls. *)
Definition with_paths {E} (T : ssz_type) (b : list N) (ps : list (list path_elem)) : outcome E (list N) :=
  fold_outcome (with_path T) ps b.

Section HostInput.
  Variable X : Externals.
  Variable cs : ChainSpec.
  (** bls [PublicKey::deserialize]. *)
  Variable pk_deserialize : bytes -> option PublicKey.
  (** The state provider. Its answers do not change (HostStore.v models its caches). *)
  Variable states : Slot -> answer HState.
  (** [ChainReader::get_block_header]. *)
  Variable headers : Root -> outcome N (option Header).

  Definition tree_root (t : mtree) : Root := mroot (sha256 X) t.
  (** [MultiproofBuilder::build] on a container with SSZ tree [t]. *)
  Definition build_proof (t : mtree) (b : list N) : outcome HIError Multiproof :=
    build (tree_oracle HI_Build (sha256 X) t) b.

  (** state_provider.rs:77-78 and preflight_input_reader.rs:68-69. *)
  Definition boundary_block (st : HState) : Header :=
    let h := hs_header st in
    mkHeader (hd_slot h) (hd_proposer_index h) (hd_parent_root h)
      (tree_root (state_tree (sha256 X) (hs_state st))) (hd_body h).
  Definition boundary_root (st : HState) : Root := tree_root (header_tree (sha256 X) (boundary_block st)).

  (** conversions.rs:66-79 [try_as_beacon_type]. *)
  Definition validator_info (v : Validator) : outcome ReaderError ValidatorInfo :=
    pk <- ok_or (pk_deserialize (v_pubkey v)) (RE_Other 1) ;;
    Ok (mkValidatorInfo pk (v_effective_balance v) (v_slashed v) (v_activation_eligibility_epoch v)
          (v_activation_epoch v) (v_exit_epoch v)).
  (** host_input_reader.rs:226-229 [is_active_validator]. *)
  Definition is_active_validator (v : Validator) (e : Epoch) : bool :=
    (v_activation_epoch v <=? e) && (e <? v_exit_epoch v).
  (** [iter().enumerate()]. *)
  Fixpoint enumerate {A} (i : N) (l : list A) : list (N * A) :=
    match l with [] => [] | x :: r => (i, x) :: enumerate (i + 1) r end.
  (** host_input_reader.rs:184-190. *)
  Definition active_from_state (st : HState) (e : Epoch) : outcome ReaderError (list (ValidatorIndex * ValidatorInfo)) :=
    map_outcome (fun iv => vi <- validator_info (snd iv) ;; Ok (fst iv, vi))
      (filter (fun iv => is_active_validator (snd iv) e) (enumerate 0 (st_validators (hs_state st)))).
  (** host_input_reader.rs:126-128. *)
  Definition reader_state (e : Epoch) : outcome ReaderError HState :=
    map_err (fun _ => RE_Other 2) (states (start_slot cs e)).

  (** host_input_reader.rs:151-224: the [InputReader] implementation. The per-epoch validator cache is
      not modelled: it stores a function of the state. The genesis validators root is that of any cached
      state (cache_provider.rs:43-49); the cache is not empty, since [prepare_input] has requested the
      state at the start of the trusted epoch before. Simplification: of the cached states this first
      one is taken. *)
  Definition host_reader (cst : ConsensusState) (atts : list Attestation) : Reader := {|
    rd_chain_spec := cs;
    rd_genesis_validators_root :=
      st <- reader_state (epoch (finalized cst)) ;; Ok (st_genesis_validators_root (hs_state st));
    rd_fork := fun e => st <- reader_state e ;; Ok (st_fork (hs_state st));
    rd_active_validators := fun e => st <- reader_state e ;; active_from_state st e;
    rd_randao_mix := fun e i => st <- reader_state e ;; Ok (nth_error (hs_randao_mixes st) (N.to_nat i));
    rd_attestations := Ok atts;
    rd_consensus_state := Ok cst;
    rd_slot_for_block := fun r =>
      o <- map_err (fun c => RE_Other c) (headers r) ;;
      h <- ok_or o (RE_Other 3) ;;
      Ok (hd_slot h) |}.

  (** preflight_input_reader.rs:197-255: the recording reader, apart from the recording. *)
  Definition preflight_reader (trusted : Checkpoint) (R : Reader) : Reader := {|
    rd_chain_spec := rd_chain_spec R;
    rd_genesis_validators_root := rd_genesis_validators_root R;
    rd_fork := rd_fork R;
    rd_active_validators := fun e => _ <- assert_ (epoch trusted <=? e) ;; rd_active_validators R e;
    rd_randao_mix := fun e i => o <- rd_randao_mix R e i ;; m <- expect o ;; Ok (Some m);
    rd_attestations := rd_attestations R;
    rd_consensus_state := rd_consensus_state R;
    rd_slot_for_block := rd_slot_for_block R |}.

  (** preflight_input_reader.rs:40-42: what has been read. *)
  Record Reads := mkReads {
    rs_validator_epochs : list Epoch;
    rs_mix_epochs : bmap (list N);
    rs_blocks : list Root }.
  (** input_reader.rs:61-86: the index that [get_seed] reads for epoch [e]. *)
  Definition seed_mix_index (e : Epoch) : N :=
    (wrap_usize X (e + epochs_per_historical_vector cs - min_seed_lookahead cs - 1)
       mod epochs_per_historical_vector cs) mod 2 ^ 32.
  (** The recorded reads of a successful [verify] (verify.rs:91-161): for each link the active
      validators and one RANDAO mix of its target epoch, and at the end one block slot.
      Simplification: the recording is given for successful runs only, the only case in which
      [to_input] is called (zkasper_cli.rs:403-406). *)
  Definition record_link (r : Reads) (l : Link) : Reads :=
    let te := epoch (target l) in
    mkReads (bs_insert (rs_validator_epochs r) te)
      (bm_insert (rs_mix_epochs r) te
         (bs_insert (match bm_get (rs_mix_epochs r) te with Some s => s | None => [] end) (seed_mix_index te)))
      (rs_blocks r).
  Definition recorded_reads (atts : list Attestation) (post : ConsensusState) : Reads :=
    let r := fold_left record_link (map fst (chunk_by_link atts)) (mkReads [] [] []) in
    mkReads (rs_validator_epochs r) (rs_mix_epochs r) [root (finalized post)].

  (** preflight_input_reader.rs:70-72. *)
  Definition block_multiproof (h : Header) : outcome HIError Multiproof :=
    b <- with_path T_header builder_new [Field "state_root"] ;;
    build_proof (header_tree (sha256 X) h) b.
  (** preflight_input_reader.rs:257-272 [build_state_multiproof]. *)
  Definition state_paths : list (list path_elem) :=
    [[Field "genesis_validators_root"]; [Field "slot"]; [Field "fork"; Field "previous_version"];
     [Field "fork"; Field "current_version"]; [Field "fork"; Field "epoch"]; [Field "validators"];
     [Field "finalized_checkpoint"; Field "epoch"]; [Field "earliest_exit_epoch"];
     [Field "earliest_consolidation_epoch"]].
  Definition build_state_multiproof (s : State) : outcome HIError Multiproof :=
    b <- with_paths (if st_fulu s then T_fulu_state else T_electra_state) builder_new state_paths ;;
    build_proof (state_tree (sha256 X) s) b.

  (** preflight_input_reader.rs:107-114. *)
  Definition validator_paths (i : N) : list (list path_elem) :=
    [[Index i; Field "public_key"; Index 0]; [Index i; Field "public_key"; Index 47];
     [Index i; Field "effective_balance"]; [Index i; Field "slashed"];
     [Index i; Field "activation_eligibility_epoch"]; [Index i; Field "activation_epoch"];
     [Index i; Field "exit_epoch"]].
  (** preflight_input_reader.rs:117-122: peek at the active validators. *)
  Definition next_key (i : N) (v : Validator) (active : list (ValidatorIndex * ValidatorInfo))
    : outcome HIError (PublicKey * list (ValidatorIndex * ValidatorInfo)) :=
    match active with
    | (j, vi) :: rest => if j =? i then Ok (pubkey vi, rest)
                         else pk <- expect (pk_deserialize (v_pubkey v)) ;; Ok (pk, active)
    | [] => pk <- expect (pk_deserialize (v_pubkey v)) ;; Ok (pk, active)
    end.
  (** preflight_input_reader.rs:101-125: the loop over the registry. *)
  Fixpoint request_validators (cur : Epoch) (i : N) (vs : list Validator)
           (active : list (ValidatorIndex * ValidatorInfo)) (b : list N) (keys : list PublicKey)
    : outcome HIError (list N * list PublicKey) :=
    match vs with
    | [] => Ok (b, keys)
    | v :: r =>
        if v_exit_epoch v <=? cur then
          b' <- with_path T_validators b [Index i; Field "exit_epoch"] ;;
          request_validators cur (i + 1) r active b' keys
        else
          b' <- with_paths T_validators b (validator_paths i) ;;
          '(pk, active') <- next_key i v active ;;
          request_validators cur (i + 1) r active' b' (keys ++ [pk])
    end.
  (** preflight_input_reader.rs:95-126. *)
  Definition validators_multiproof (cur : Epoch) (vs : list Validator)
             (active : list (ValidatorIndex * ValidatorInfo)) : outcome HIError (Multiproof * list PublicKey) :=
    b0 <- with_path T_validators builder_new [Length] ;;
    '(b, keys) <- request_validators cur 0 vs active b0 [] ;;
    mp <- build_proof (registry_tree (sha256 X) vs) b ;;
    Ok (mp, keys).

  (** state_patch_builder.rs:27-38: [StatePatchBuilder]. *)
  Notation patch_in_progress := (HState * StatePatch)%type.
  (** preflight_input_reader.rs:188-194 [patch_builder]. *)
  Definition patch_builder (e : Epoch) : outcome HIError patch_in_progress :=
    st <- map_err HI_Provider (states (start_slot cs e)) ;; Ok (st, EMPTY_STATE_PATCH).
  (** state_patch_builder.rs:40-48 [randao_mix]. *)
  Definition patch_randao_mix (p : patch_in_progress) (i : N) : outcome HIError patch_in_progress :=
    m <- ok_or (nth_error (hs_randao_mixes (fst p)) (N.to_nat i)) HI_NoMix ;;
    Ok (fst p, mkStatePatch (bm_insert (randao_mixes (snd p)) i m) (validator_exits (snd p))).
  (** state_patch_builder.rs:50-57 [validator_diff]; [zip] stops at the shorter list. *)
  Definition diff_step (ex : bmap Epoch) (x : N * (Validator * Validator)) : bmap Epoch :=
    let '(i, (a, b)) := x in
    if v_exit_epoch a =? v_exit_epoch b then ex else bm_insert ex i (v_exit_epoch a).
  Definition patch_validator_diff (p : patch_in_progress) (vs : list Validator) : patch_in_progress :=
    (fst p, mkStatePatch (randao_mixes (snd p))
              (fold_left diff_step (enumerate 0 (combine (st_validators (hs_state (fst p))) vs))
                 (validator_exits (snd p)))).
  (** [entry(epoch).or_insert(self.patch_builder(epoch)?)]: the state is fetched in any case. *)
  Definition patch_entry (m : bmap patch_in_progress) (e : Epoch) : outcome HIError patch_in_progress :=
    p <- patch_builder e ;;
    Ok (match bm_get m e with Some q => q | None => p end).
  (** preflight_input_reader.rs:137-144 and 145-152. *)
  Definition mix_step (m : bmap patch_in_progress) (x : Epoch * list N) : outcome HIError (bmap patch_in_progress) :=
    p <- patch_entry m (fst x) ;;
    p' <- fold_outcome patch_randao_mix (snd x) p ;;
    Ok (bm_insert m (fst x) p').
  Definition exit_step (trusted : Epoch) (vs : list Validator) (m : bmap patch_in_progress) (e : Epoch)
    : outcome HIError (bmap patch_in_progress) :=
    if e =? trusted then Ok m
    else p <- patch_entry m e ;; Ok (bm_insert m e (patch_validator_diff p vs)).
  (** preflight_input_reader.rs:136-156. *)
  Definition state_patches (trusted : Epoch) (vs : list Validator) (reads : Reads) : outcome HIError (bmap StatePatch) :=
    m1 <- fold_outcome mix_step (rs_mix_epochs reads) [] ;;
    m2 <- fold_outcome (exit_step trusted vs) (rs_validator_epochs reads) m1 ;;
    Ok (map (fun kv => (fst kv, snd (snd kv))) m2).

  (** preflight_input_reader.rs:158-174: one block slot proof. *)
  Definition block_slot_proof (r : Root) : outcome HIError Multiproof :=
    o <- map_err HI_Chain (headers r) ;;
    h <- ok_or o HI_NoBlock ;;
    b <- with_path T_header builder_new [Field "slot"] ;;
    mp <- build_proof (header_tree (sha256 X) h) b ;;
    _ <- map_err HI_Proof (mp_verify (sha256 X) mp r) ;;
    Ok mp.

  (** preflight_input_reader.rs:63-186 [to_input], for the inner reader [R]. *)
  Definition to_input (trusted : Checkpoint) (R : Reader) (reads : Reads) : outcome HIError GuestInput :=
    st <- map_err HI_Provider (state_at_checkpoint (fun s => st_slot (hs_state s)) (fun s => hd_slot (hs_header s))
                                 boundary_root states cs trusted) ;;
    let s := hs_state st in
    let state_root := tree_root (state_tree (sha256 X) s) in
    bp <- block_multiproof (boundary_block st) ;;
    _ <- map_err HI_Proof (mp_verify (sha256 X) bp (root trusted)) ;;
    _ <- ensure (hs_supported st) HI_Version ;;
    sp <- build_state_multiproof s ;;
    _ <- map_err HI_Proof (mp_verify (sha256 X) sp state_root) ;;
    active <- map_err HI_Reader (rd_active_validators R (epoch trusted)) ;;
    '(vp, keys) <- validators_multiproof (epoch trusted) (st_validators s) active ;;
    _ <- map_err HI_Proof (mp_verify (sha256 X) vp (tree_root (registry_tree (sha256 X) (st_validators s)))) ;;
    patches <- state_patches (epoch trusted) (st_validators s) reads ;;
    slot_proofs <- map_outcome block_slot_proof (rs_blocks reads) ;;
    cst <- map_err HI_Reader (rd_consensus_state R) ;;
    atts <- map_err HI_Reader (rd_attestations R) ;;
    Ok (mkGuestInput bp sp vp keys patches cst atts slot_proofs).

  (** zkasper_cli.rs:372-415 [prepare_input], after the consensus state and the attestations have been
      collected ([host_new], host_input_reader.rs:82-118, is [collect]). [blocks] is
      [BeaconClient::get_block], a block being the header with its body; serialization of the input
      is not modelled. *)
  Definition prepare_input (blocks : Slot -> outcome N (option Header))
             (collect : Checkpoint -> outcome HostError (ConsensusState * list Attestation))
             (cfg : Config) (finalized_epoch : Epoch)
    : outcome HIError (GuestInput * ConsensusState * ConsensusState * N) :=
    st <- map_err HI_Provider (state_at_epoch_boundary (fun s => st_slot (hs_state s)) (fun s => hd_slot (hs_header s))
                                 states cs finalized_epoch) ;;
    o <- map_err HI_Chain (blocks (hd_slot (hs_header st))) ;;
    blk <- ok_or o HI_NoBlock ;;
    _ <- assert_ (bytes_eqb (hd_state_root blk) (tree_root (state_tree (sha256 X) (hs_state st)))) ;;
    let trusted := mkCheckpoint finalized_epoch (tree_root (header_tree (sha256 X) blk)) in
    '(cst, atts) <- map_err HI_Host (collect trusted) ;;
    let R := host_reader cst atts in
    '(post, slot) <- map_err HI_Preflight (verify X cfg (preflight_reader trusted R)) ;;
    gi <- to_input trusted R (recorded_reads atts post) ;;
    Ok (gi, gi_consensus_state gi, post, slot).
End HostInput.
