(** core/src/verify.rs and core/src/input_reader.rs. *)
From Coq Require Import List NArith Bool.
From Verif.Model Require Import Base Types ConsensusState TreeHash Committee.
Import ListNotations.
Open Scope N_scope.

(** Errors of an [InputReader] ([GuestReaderError] etc.); the text is not modelled. *)
Inductive ReaderError := RE_Arith (e : ArithError) | RE_Config | RE_Other (code : N).

(** verify.rs:29-59 [VerifyError]; strings are replaced by constructors. *)
Inductive VerifyError :=
| InvalidSignature | EmptyAttestation
| InvalidFinalization (c : Checkpoint)
| VConsensus (e : ConsensusError)
| ThresholdNotMet (attesting threshold : N)
| VCommittee (e : CCError)
| StateReaderError (e : ReaderError)
| MissingValidatorInfo (i : ValidatorIndex)
| UnsupportedFork (f : ForkName)
| LighthouseTypes (e : ArithError)
| LookaheadExceedsLimit (a b : Epoch)
| VArith (e : ArithError).

(** input_reader.rs:24-58, the [InputReader] trait as a record of its required methods. *)
Record Reader := mkReader {
  rd_chain_spec : ChainSpec;
  rd_genesis_validators_root : outcome ReaderError Root;
  rd_fork : Epoch -> outcome ReaderError Fork;
  rd_active_validators : Epoch -> outcome ReaderError (list (ValidatorIndex * ValidatorInfo));
  rd_randao_mix : Epoch -> N -> outcome ReaderError (option bytes);
  rd_attestations : outcome ReaderError (list Attestation);
  rd_consensus_state : outcome ReaderError ConsensusState;
  rd_slot_for_block : Root -> outcome ReaderError N }.

(** input_reader.rs:61-69 [get_randao_mix]: [as_usize] truncates to the platform width,
    [as RandaoMixIndex] to 32 bits. *)
Definition get_randao_mix (X : Externals) (R : Reader) (state_epoch e : Epoch)
  : outcome ReaderError bytes :=
  idx <- safe_rem RE_Arith (wrap_usize X e) (epochs_per_historical_vector (rd_chain_spec R)) ;;
  o <- rd_randao_mix R state_epoch (idx mod 2 ^ 32) ;;
  expect o.

(** input_reader.rs:72-86 [get_seed]. *)
Definition get_seed (X : Externals) (R : Reader) (e : Epoch) (domain_type : bytes)
  : outcome ReaderError bytes :=
  let cs := rd_chain_spec R in
  a <- safe_add RE_Arith e (epochs_per_historical_vector cs) ;;
  b <- safe_sub RE_Arith a (min_seed_lookahead cs) ;;
  i <- safe_sub RE_Arith b 1 ;;
  mix <- get_randao_mix X R e i ;;
  Ok (sha256 X (domain_type ++ le_bytes 8 e ++ mix)).

(** input_reader.rs:92-105 [get_total_balance]. *)
Definition sum_balances {E} (f : ArithError -> E) (vs : list ValidatorInfo) (acc : N) : outcome E N :=
  fold_outcome (fun a v => safe_add f a (effective_balance v)) vs acc.
Definition get_total_balance {E} (f : ArithError -> E) (cs : ChainSpec) (vs : list ValidatorInfo)
  : outcome E N :=
  t <- sum_balances f vs 0 ;;
  Ok (N.max t (effective_balance_increment cs)).

(** verify.rs:167-191 [validate_link]. *)
Definition validate_link (cfg : Config) (cs : ChainSpec) (trusted : Checkpoint) (l : Link)
  : outcome VerifyError unit :=
  let te := epoch (target l) in
  let f := fork_name_at_epoch cs te in
  _ <- ensure (is_supported_version cfg f) (UnsupportedFork f) ;;
  let lookahead := sat_sub te (epoch trusted) in
  ensure (lookahead <=? epoch_lookahead_limit cfg)
         (LookaheadExceedsLimit lookahead (epoch_lookahead_limit cfg)).

(** Lighthouse [EthSpec::get_committee_count_per_slot]. *)
Definition get_committee_count_per_slot (cs : ChainSpec) (active : N) : outcome VerifyError N :=
  a <- safe_div LighthouseTypes active (slots_per_epoch cs) ;;
  b <- safe_div LighthouseTypes a (target_committee_size cs) ;;
  Ok (N.max 1 (N.min (max_committees_per_slot cs) b)).

(** verify.rs:272-298 [compute_committees]. *)
Definition compute_committees (X : Externals) (R : Reader) (av : bmap ValidatorInfo) (e : Epoch)
  : outcome VerifyError CommitteeCache :=
  let cs := rd_chain_spec R in
  seed <- map_err StateReaderError (get_seed X R e (le_bytes 4 (domain_beacon_attester cs))) ;;
  cps <- get_committee_count_per_slot cs (N.of_nat (length (bm_keys av))) ;;
  map_err VCommittee (cc_initialized X cs seed (bm_keys av) cps e).

(** verify.rs:237-269 [is_valid_indexed_attestation]. *)
Definition is_valid_indexed_attestation (X : Externals) (R : Reader) (vs : list ValidatorInfo)
           (d : AttestationData) (sig : Signature) : outcome VerifyError bool :=
  match vs with
  | [] => Err EmptyAttestation
  | _ =>
      f <- map_err StateReaderError (rd_fork R (epoch (ad_target d))) ;;
      gvr <- map_err StateReaderError (rd_genesis_validators_root R) ;;
      let domain := get_attester_domain (sha256 X) (rd_chain_spec R) (epoch (ad_target d)) f gvr in
      Ok (bls_verify X sig (signing_root (sha256 X) d domain) (map pubkey vs))
  end.

(** verify.rs:194-234 [process_attestation]. *)
Definition process_attestation (X : Externals) (R : Reader) (av : bmap ValidatorInfo)
           (c : CommitteeCache) (a : Attestation) : outcome VerifyError (list ValidatorIndex) :=
  let d := att_data a in
  _ <- assert_ (att_electra a) ;;
  _ <- assert_ (epoch (ad_target d) =? epoch_of_slot (rd_chain_spec R) (ad_slot d)) ;;
  _ <- assert_ (ad_index d =? 0) ;;
  idxs <- map_err VCommittee (get_attesting_indices X (rd_chain_spec R) c a) ;;
  vs <- map_outcome (fun i => ok_or (bm_get av i) (MissingValidatorInfo i)) idxs ;;
  ok <- is_valid_indexed_attestation X R vs d (att_signature a) ;;
  _ <- ensure ok InvalidSignature ;;
  Ok idxs.

(** itertools [chunk_by] with key (source, target), verify.rs:87-90. *)
Definition att_link (a : Attestation) : Link := mkLink (ad_source (att_data a)) (ad_target (att_data a)).
Fixpoint chunk_by_link (l : list Attestation) : list (Link * list Attestation) :=
  match l with
  | [] => []
  | a :: r =>
      match chunk_by_link r with
      | (k, g) :: gs => if link_eqb (att_link a) k then (k, a :: g) :: gs
                        else (att_link a, [a]) :: (k, g) :: gs
      | [] => [(att_link a, [a])]
      end
  end.

(** verify.rs:115-120: union of the attesting indices of a group. *)
Definition process_group (X : Externals) (R : Reader) (av : bmap ValidatorInfo) (c : CommitteeCache)
           (atts : list Attestation) : outcome VerifyError (list ValidatorIndex) :=
  fold_outcome (fun acc a => idxs <- process_attestation X R av c a ;; Ok (bs_extend acc idxs))
               atts [].

(** verify.rs:122-146: balances and threshold of a link. u128 products cannot overflow. *)
Definition check_threshold (cfg : Config) (cs : ChainSpec) (av : bmap ValidatorInfo)
           (participating : list ValidatorIndex) : outcome VerifyError unit :=
  vs <- map_outcome (fun i => expect (bm_get av i)) participating ;;
  target_balance <- get_total_balance VArith cs (filter (fun v => negb (slashed v)) vs) ;;
  total <- get_total_balance VArith cs (bm_values av) ;;
  let q := justification_threshold_quotient cfg in
  let lhs := target_balance * q in
  let rhs := total * justification_threshold_factor cfg in
  _ <- (if rhs <=? lhs then Ok tt
        else if q =? 0 then Panic (* division by zero while building the error *)
        else Err (ThresholdNotMet target_balance (wrap64 (rhs / q)))) ;;
  t3 <- safe_mul VArith target_balance 3 ;;
  t2 <- safe_mul VArith total 2 ;;
  assert_ (t2 <=? t3).

(** verify.rs:91-151: one iteration of the link loop. *)
Definition process_link (X : Externals) (cfg : Config) (R : Reader) (trusted : Checkpoint)
           (st : ConsensusState) (g : Link * list Attestation) : outcome VerifyError ConsensusState :=
  let cs := rd_chain_spec R in
  let '(l, atts) := g in
  _ <- ensure (checkpoint_eqb (finalized st) trusted) (InvalidFinalization (finalized st)) ;;
  _ <- validate_link cfg cs trusted l ;;
  let te := epoch (target l) in
  avl <- map_err StateReaderError (rd_active_validators R te) ;;
  let av := bm_of_list avl in
  c <- compute_committees X R av te ;;
  participating <- process_group X R av c atts ;;
  _ <- check_threshold cfg cs av participating ;;
  st' <- map_err VConsensus (state_transition st l) ;;
  _ <- assert_ (is_valid st') ;;
  Ok st'.

(** verify.rs:78-164 [verify]. *)
Definition verify (X : Externals) (cfg : Config) (R : Reader) : outcome VerifyError (ConsensusState * N) :=
  st0 <- unwrap (rd_consensus_state R) ;;
  let trusted := finalized st0 in
  atts <- unwrap (rd_attestations R) ;;
  st <- fold_outcome (process_link X cfg R trusted) (chunk_by_link atts) st0 ;;
  _ <- ensure (negb (checkpoint_eqb (finalized st) trusted)) (InvalidFinalization (finalized st)) ;;
  slot <- map_err StateReaderError (rd_slot_for_block R (root (finalized st))) ;;
  Ok (st, slot).
