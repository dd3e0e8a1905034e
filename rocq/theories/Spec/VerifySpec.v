(** Specification of an accepted finality proof, in terms of the input source's answers. *)
From Coq Require Import List NArith Bool Sorted.
From Verif.Model Require Import Base Types ConsensusState Verify.
From Verif.Spec Require Import FFG Committees Ssz.
Import ListNotations.
Open Scope N_scope.

(** Indexed validators. *)
Notation validators := (list (N * ValidatorInfo)) (only parsing).

(** Exact sum of effective balances. *)
Fixpoint weight (vs : validators) : N :=
  match vs with [] => 0 | v :: r => effective_balance (snd v) + weight r end.
Definition unslashed (vs : validators) : validators := filter (fun v => negb (slashed (snd v))) vs.
(** get_total_balance of the consensus specification: at least one increment. *)
Definition balance_of (cs : ChainSpec) (vs : validators) : N :=
  N.max (effective_balance_increment cs) (weight vs).

(** [av] is the active set listed by [l]: ascending, without duplicate indices; when [l] lists an
    index twice the last entry counts. *)
Definition active_set (l av : validators) : Prop :=
  StronglySorted N.lt (map fst av) /\
  forall i v, In (i, v) av <-> find (fun x => fst x =? i) (rev l) = Some (i, v).

(** Consecutive attestations with the same link form a group. *)
Definition link_of (a : Attestation) : Link := mkLink (ad_source (att_data a)) (ad_target (att_data a)).
Definition group_ok (g : Link * list Attestation) : Prop :=
  snd g <> [] /\ forall a, In a (snd g) -> link_of a = fst g.
Fixpoint adjacent_differ (ls : list Link) : Prop :=
  match ls with
  | a :: ((b :: _) as r) => a <> b /\ adjacent_differ r
  | _ => True
  end.
Definition groups (atts : list Attestation) (gs : list (Link * list Attestation)) : Prop :=
  concat (map snd gs) = atts /\ Forall group_ok gs /\ adjacent_differ (map fst gs).

(** One aggregate attestation for link [l] is valid and was signed by [signers]. *)
Record aggregate_ok (X : Externals) (cs : ChainSpec) (f : Fork) (gvr : Root) (av : validators)
       (l : Link) (a : Attestation) (signers : validators) : Prop := {
  agg_electra : att_electra a = true;
  agg_source : ad_source (att_data a) = source l;
  agg_target : ad_target (att_data a) = target l;
  agg_slot : ad_slot (att_data a) / slots_per_epoch cs = epoch (target l);
  agg_index : ad_index (att_data a) = 0;
  agg_signers : signers <> [] /\ NoDup (map fst signers) /\ incl signers av;
  agg_signature :
    bls_verify X (att_signature a)
      (attestation_signing_root (sha256 X) (att_data a)
         (domain (sha256 X) (domain_beacon_attester cs) (version_at f (epoch (target l))) gvr))
      (map (fun s => pubkey (snd s)) signers) = true }.

(** The participants [P] of a group of aggregates: the union of the signers, without duplicates. *)
Definition union_of (sets : list validators) (P : validators) : Prop :=
  NoDup (map fst P) /\ forall x, In x P <-> exists s, In s sets /\ In x s.

(** The participants' unslashed balance reaches the configured threshold and two thirds. *)
Definition enough (cfg : Config) (cs : ChainSpec) (av P : validators) : Prop :=
  balance_of cs av * justification_threshold_factor cfg
    <= balance_of cs (unslashed P) * justification_threshold_quotient cfg /\
  2 * balance_of cs av <= 3 * balance_of cs (unslashed P).

(** A link is a supermajority link: its attestations are valid aggregates of active validators
    whose union has enough balance. *)
Definition supermajority_link (X : Externals) (cfg : Config) (R : Reader) (l : Link)
           (atts : list Attestation) (av P : validators) : Prop :=
  exists f gvr avl sets,
    rd_fork R (epoch (target l)) = Ok f /\
    rd_genesis_validators_root R = Ok gvr /\
    rd_active_validators R (epoch (target l)) = Ok avl /\
    active_set avl av /\
    Forall2 (aggregate_ok X (rd_chain_spec R) f gvr av l) atts sets /\
    union_of sets P /\
    enough cfg (rd_chain_spec R) av P.

(** Links accepted from a state: an atomic finalization starting at the justified checkpoint. The
    all-zero genesis state may first be left by one arbitrary link. *)
Inductive accepted_chain : ConsensusState -> list Link -> ConsensusState -> Prop :=
| chain_normal : forall s ls f t,
    valid_state s -> s <> genesis_state -> atomic_finalization (current_justified s) ls f t ->
    accepted_chain s ls (mkCS t f)
| chain_genesis : forall b ls f t,
    0 < epoch b -> atomic_finalization b ls f t ->
    accepted_chain genesis_state (mkLink genesis_cp b :: ls) (mkCS t f).

(** Configured bounds on a link. *)
Definition within_bounds (cfg : Config) (cs : ChainSpec) (trusted : Checkpoint) (l : Link) : Prop :=
  epoch (target l) <= epoch trusted + epoch_lookahead_limit cfg /\
  fork_rank (min_version cfg) <= fork_rank (fork_name_at_epoch cs (epoch (target l)))
    <= fork_rank (max_version cfg).

(** ** What must be supplied for a link to be accepted (completeness) *)
Definition seed_epoch_index (cs : ChainSpec) (e : Epoch) : N :=
  (e + epochs_per_historical_vector cs - min_seed_lookahead cs - 1) mod epochs_per_historical_vector cs.
Definition committee_count (cs : ChainSpec) (n : N) : N :=
  N.max 1 (N.min (max_committees_per_slot cs) (n / slots_per_epoch cs / target_committee_size cs)).

(** Platform and chain constants for which the committee arithmetic is exact. *)
Definition sane_spec (X : Externals) (cs : ChainSpec) : Prop :=
  slots_per_epoch cs <> 0 /\ target_committee_size cs <> 0 /\
  epochs_per_historical_vector cs <> 0 /\ epochs_per_historical_vector cs <= 2 ^ 32 /\
  min_seed_lookahead cs < epochs_per_historical_vector cs /\
  N.divide (epochs_per_historical_vector cs) (2 ^ usize_bits X).

(** All an honest prover has to supply for one link. *)
Definition link_evidence (X : Externals) (cfg : Config) (R : Reader) (l : Link) (atts : list Attestation) : Prop :=
  let cs := rd_chain_spec R in
  let e := epoch (target l) in
  exists f gvr avl av mix sh sets P,
    let cps := committee_count cs (N.of_nat (length av)) in
    rd_fork R e = Ok f /\
    rd_genesis_validators_root R = Ok gvr /\
    rd_active_validators R e = Ok avl /\
    active_set avl av /\ av <> [] /\ Forall (fun v => fst v < 2 ^ usize_bits X - 1) av /\
    e + epochs_per_historical_vector cs < 2 ^ 64 /\
    rd_randao_mix R e (seed_epoch_index cs e) = Ok (Some mix) /\
    shuffle_list X (map fst av) (shuffle_round_count cs)
      (sha256 X (le_bytes 4 (domain_beacon_attester cs) ++ le_bytes 8 e ++ mix)) = Some sh /\
    fits_platform X (slots_per_epoch cs) cps (N.of_nat (length sh)) /\
    (* every aggregate is signed by exactly its attesters, whose keys are listed in index order *)
    Forall2 (fun a signers =>
      bits_well_formed sh (slots_per_epoch cs) cps a /\
      aggregate_ok X cs f gvr av l a signers /\
      StronglySorted N.lt (map fst signers) /\
      forall i, In i (map fst signers) <-> In i (attesters_of sh (slots_per_epoch cs) cps a)) atts sets /\
    union_of sets P /\
    enough cfg cs av P /\
    (* the balance arithmetic does not overflow *)
    2 * balance_of cs av < 2 ^ 64 /\ 3 * balance_of cs (unslashed P) < 2 ^ 64.

(** Every active set the source reports is small enough for the platform's committee arithmetic. *)
Definition reader_fits (X : Externals) (R : Reader) : Prop :=
  forall e avl av, rd_active_validators R e = Ok avl -> active_set avl av ->
    fits_platform X (slots_per_epoch (rd_chain_spec R))
      (committee_count (rd_chain_spec R) (N.of_nat (length av))) (N.of_nat (length av)).

(** ** The only reasons for a panic *)
Inductive panic_cause (X : Externals) (cfg : Config) (R : Reader) : Prop :=
(* the source fails to deliver the state or the attestations, or panics itself *)
| pc_state : (forall s, rd_consensus_state R <> Ok s) -> panic_cause X cfg R
| pc_attestations : (forall l, rd_attestations R <> Ok l) -> panic_cause X cfg R
| pc_gvr : rd_genesis_validators_root R = Panic -> panic_cause X cfg R
| pc_fork : forall e, rd_fork R e = Panic -> panic_cause X cfg R
| pc_active : forall e, rd_active_validators R e = Panic -> panic_cause X cfg R
| pc_randao : forall e i, rd_randao_mix R e i = Panic \/ rd_randao_mix R e i = Ok None -> panic_cause X cfg R
| pc_slot_lookup : forall r, rd_slot_for_block R r = Panic -> panic_cause X cfg R
(* the initial state is inconsistent *)
| pc_invalid_state : forall s, rd_consensus_state R = Ok s -> ~ valid_state s -> panic_cause X cfg R
(* a malformed attestation *)
| pc_attestation : forall atts a, rd_attestations R = Ok atts -> In a atts ->
    att_electra a = false \/
    ad_slot (att_data a) / slots_per_epoch (rd_chain_spec R) <> epoch (ad_target (att_data a)) \/
    ad_index (att_data a) <> 0 -> panic_cause X cfg R
| pc_bits : forall atts a avl av seed sh, rd_attestations R = Ok atts -> In a atts ->
    rd_active_validators R (epoch (ad_target (att_data a))) = Ok avl -> active_set avl av ->
    shuffle_list X (map fst av) (shuffle_round_count (rd_chain_spec R)) seed = Some sh ->
    ~ bits_well_formed sh (slots_per_epoch (rd_chain_spec R))
        (committee_count (rd_chain_spec R) (N.of_nat (length av))) a -> panic_cause X cfg R
(* a threshold of x/0, or below two thirds *)
| pc_quotient : justification_threshold_quotient cfg = 0 -> panic_cause X cfg R
| pc_threshold : 3 * justification_threshold_factor cfg < 2 * justification_threshold_quotient cfg ->
    panic_cause X cfg R.
