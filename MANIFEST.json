{
 "claims": [
  {
   "property": "C01",
   "status": "proved",
   "theorems": [
    "C01_state_transition_is_ffg_step",
    "C01_state_transition_accepts_iff",
    "C01_state_transition_failures"
   ],
   "note": "state_transition succeeds exactly on FFG steps; every failure class characterised."
  },
  {
   "property": "C02",
   "status": "proved",
   "theorems": [
    "C02_histories_stay_valid_and_advance",
    "C02_histories_are_ffg_runs"
   ],
   "note": "Histories of any length from any valid state."
  },
  {
   "property": "C03",
   "status": "proved",
   "theorems": [
    "C03_link_of_transition",
    "C03_transition_of_link",
    "C03_no_link_iff_same",
    "C03_genesis_link_refuted"
   ],
   "note": "Proved for every transition except genesis link 0->1, which is refuted by C03_genesis_link_refuted (transition_link rejects it)."
  },
  {
   "property": "C04",
   "status": "proved",
   "theorems": [
    "C04_link_exists_iff",
    "C04_two_finality_iff",
    "C04_panics_only_on_invalid_self"
   ],
   "note": "Characterises success, the two-finality error and panics; every other pair is an error."
  },
  {
   "property": "C05",
   "status": "proved",
   "theorems": [
    "C05_abi_round_trip",
    "C05_abi_injective",
    "C05_abi_decode_only_valid",
    "C05_abi_decode_rejects"
   ],
   "note": "Round trip, injectivity, rejection classes."
  },
  {
   "property": "C06",
   "status": "proved",
   "theorems": [
    "C06_journal_layout",
    "C06_host_decodes_journal",
    "C06_journal_injective"
   ],
   "note": "Includes the host-side split at 128 bytes."
  },
  {
   "property": "C07",
   "status": "proved",
   "theorems": [
    "C07_atomic_finalization",
    "C07_result"
   ],
   "note": "For every configuration and every reader, including readers that lie; the genesis all-zero state is covered."
  },
  {
   "property": "C08",
   "status": "proved",
   "theorems": [
    "C08_supermajority",
    "C08_weights"
   ],
   "note": "No assumption on the shuffle or on RANDAO mixes."
  },
  {
   "property": "C09",
   "status": "proved",
   "theorems": [
    "C09_signed_link",
    "C09_committee_members"
   ],
   "note": "BLS verification is an abstract oracle: the theorem says on what it was called and that it answered yes."
  },
  {
   "property": "C10",
   "status": "proved",
   "theorems": [
    "C10_link_bounds",
    "C10_result_bounds"
   ],
   "note": ""
  },
  {
   "property": "C11",
   "status": "proved",
   "theorems": [
    "C11_complete",
    "C11_exact"
   ],
   "note": "C11_exact gives the converse: success holds exactly for well-supported chains."
  },
  {
   "property": "C12",
   "status": "proved",
   "theorems": [
    "C12_replay"
   ],
   "note": ""
  },
  {
   "property": "C13",
   "status": "proved",
   "theorems": [
    "C13_two_thirds"
   ],
   "note": ""
  },
  {
   "property": "C14",
   "status": "proved",
   "theorems": [
    "C14_accountable_safety",
    "C14_one_registry",
    "C14_default"
   ],
   "note": "Weights of the intersection are proved, not assumed; C14_default instantiates the default threshold."
  },
  {
   "property": "C15",
   "status": "proved",
   "theorems": [
    "C15_drift",
    "C15_drift_tight",
    "C15_mainnet"
   ],
   "note": "Integer inequality, tight (C15_drift_tight)."
  },
  {
   "property": "C16",
   "status": "proved",
   "theorems": [
    "C16_committees_partition",
    "C16_unique_committee",
    "C16_guest_32bit_refuted"
   ],
   "note": "On a 32-bit platform the arithmetic must not wrap; the limit is refuted by C16_guest_32bit_refuted."
  },
  {
   "property": "C17",
   "status": "proved",
   "theorems": [
    "C17_shuffled_position"
   ],
   "note": ""
  },
  {
   "property": "C18",
   "status": "proved",
   "theorems": [
    "C18_lookup",
    "C18_confined",
    "C18_initialization_errors",
    "C18_initialization_total"
   ],
   "note": "Initialization errors characterised and shown total."
  },
  {
   "property": "C19",
   "status": "proved",
   "theorems": [
    "C19_attesting_indices",
    "C19_attesting_count"
   ],
   "note": ""
  },
  {
   "property": "C20",
   "status": "proved",
   "theorems": [
    "C20_root_computed_iff_tree",
    "C20_verify_iff_tree",
    "C20_tree_is_unique"
   ],
   "note": "Both directions, for arbitrary descriptors and data."
  },
  {
   "property": "C21",
   "status": "proved",
   "theorems": [
    "C21_indices_are_leaf_positions",
    "C21_indices_distinct_and_ordered",
    "C21_indices_wrap"
   ],
   "note": "C21_indices_wrap shows what happens beyond depth 63."
  },
  {
   "property": "C22",
   "status": "proved",
   "theorems": [
    "C22_multiproof_binding"
   ],
   "note": "Depth below 64 is necessary, see C23. Collision alternative is explicit: two different preimages."
  },
  {
   "property": "C23",
   "status": "proved",
   "theorems": [
    "C23_forgery",
    "C23_multiproof_binding_unbounded_refuted"
   ],
   "note": "The property as stated is false; the theorems prove its negation for every hash function."
  },
  {
   "property": "C24",
   "status": "proved",
   "theorems": [
    "C24_built_proof_verifies",
    "C24_registered",
    "C24_registration_order_is_irrelevant",
    "C24_registered_paths_are_proved"
   ],
   "note": ""
  },
  {
   "property": "C25",
   "status": "proved",
   "theorems": [
    "C25_index_order_is_lexicographic"
   ],
   "note": ""
  },
  {
   "property": "C26",
   "status": "proved",
   "theorems": [
    "C26_no_nested_values",
    "C26_empty_or_root_request"
   ],
   "note": ""
  },
  {
   "property": "C27",
   "status": "proved",
   "theorems": [
    "C27_values_are_masked_leaves",
    "C27_get_is_unique_lookup",
    "C27_sequential_reads"
   ],
   "note": ""
  },
  {
   "property": "C28",
   "status": "proved",
   "theorems": [
    "C28_state_and_block_indices",
    "C28_validator_indices",
    "C28_validator_indices_distinct",
    "C28_positions_hold_fields",
    "C28_trees_are_ssz"
   ],
   "note": "Field lists of the containers are written in Spec/Ssz.v."
  },
  {
   "property": "C29",
   "status": "proved",
   "theorems": [
    "C29_state_fields"
   ],
   "note": ""
  },
  {
   "property": "C30",
   "status": "proved",
   "theorems": [
    "C30_registry_faithful",
    "C30_fuel_enough"
   ],
   "note": "C30_fuel_enough: the fuel of the loop in the model never runs out."
  },
  {
   "property": "C31",
   "status": "proved",
   "theorems": [
    "C31_registry_proof_accepted"
   ],
   "note": ""
  },
  {
   "property": "C32",
   "status": "proved",
   "theorems": [
    "C32_equals_spec_but_exits",
    "C32_only_activation_fields",
    "C32_total",
    "C32_loop_equals_spec_but_exits",
    "C32_activity_unchanged_within_lookahead",
    "C32_guest_activity_within_lookahead"
   ],
   "note": "Against a transcription of the consensus-spec function; ejections excluded and bounded separately."
  },
  {
   "property": "C33",
   "status": "proved",
   "theorems": [
    "C33_patches_do_not_matter_within_lookahead",
    "C33_trusted_epoch_zero_refuted"
   ],
   "note": "Trusted epoch 0 is refuted."
  },
  {
   "property": "C34",
   "status": "proved",
   "theorems": [
    "C34_new_exits_are_late",
    "C34_exit_set_once",
    "C34_churn_respected",
    "C34_order_of_equal_epochs_irrelevant",
    "C34_exit_set_once_across_gap_refuted"
   ],
   "note": "The claim that an exit is set once holds between consecutive patches and is refuted across gaps."
  },
  {
   "property": "C35",
   "status": "proved",
   "theorems": [
    "C35_active_set_of_committed_state",
    "C35_state_in_trusted_epoch",
    "C35_prover_independent"
   ],
   "note": ""
  },
  {
   "property": "C36",
   "status": "proved",
   "theorems": [
    "C36_finalized_slot"
   ],
   "note": ""
  },
  {
   "property": "C37",
   "status": "proved",
   "theorems": [
    "C37_guest_soundness",
    "C37_slot",
    "C37_commits_or_aborts"
   ],
   "note": "Shallow proofs and absence of a collision are explicit; without them the guest still aborts or commits."
  },
  {
   "property": "C38",
   "status": "proved",
   "theorems": [
    "C38_seed_index"
   ],
   "note": ""
  },
  {
   "property": "C39",
   "status": "proved",
   "theorems": [
    "C39_links_replay",
    "C39_links_apply",
    "C39_answers_iff",
    "C39_links_ascend"
   ],
   "note": "Fuel: the statement is about answers; C39_answers_iff says when there is one."
  },
  {
   "property": "C40",
   "status": "proved",
   "theorems": [
    "C40_votes_in_window",
    "C40_exactly_the_chains_votes",
    "C40_grouping",
    "C40_late_votes_refuted"
   ],
   "note": "Votes included later than the end of the last target epoch are missed (C40_late_votes_refuted)."
  },
  {
   "property": "C41",
   "status": "proved",
   "theorems": [
    "C41_first_confirming_epoch",
    "C41_invalid_checkpoint",
    "C41_pending_iff",
    "C41_constructor",
    "C41_constructor_assertion"
   ],
   "note": "C41_pending_iff describes when the search goes on."
  },
  {
   "property": "C42",
   "status": "proved",
   "theorems": [
    "C42_asks_only_misses",
    "C42_success_is_final",
    "C42_genesis_root"
   ],
   "note": ""
  },
  {
   "property": "C43",
   "status": "proved",
   "theorems": [
    "C43_directory_is_a_store",
    "C43_save_then_read",
    "C43_never_overwrites",
    "C43_clear_exact",
    "C43_names_are_slots",
    "C43_clear_spares_others_refuted",
    "C43_fetched_once",
    "C43_foreign_slot_refuted"
   ],
   "note": "C43_clear_spares_others_refuted: a foreign file whose name starts with a number and underscore is also deleted. C43_foreign_slot_refuted: an API that answers with the wrong slot is stored under that slot."
  },
  {
   "property": "C44",
   "status": "proved",
   "theorems": [
    "C44_frame",
    "C44_round_trip_iff",
    "C44_guest_input",
    "C44_long_input_refuted"
   ],
   "note": "Refuted for 2^32 bytes and more."
  },
  {
   "property": "C45",
   "status": "proved",
   "theorems": [
    "C45_total_balance",
    "C45_order_independent"
   ],
   "note": ""
  },
  {
   "property": "C46",
   "status": "proved",
   "theorems": [
    "C46_participants_found",
    "C46_panic_causes"
   ],
   "note": "C46_panic_causes lists every remaining panic of verification."
  },
  {
   "property": "C47",
   "status": "proved",
   "theorems": [
    "C47_u64_roundtrip",
    "C47_bool_exact",
    "C47_public_key_chunks"
   ],
   "note": ""
  },
  {
   "property": "C48",
   "status": "proved",
   "theorems": [
    "C48_signing_root_injective",
    "C48_domain_injective"
   ],
   "note": ""
  },
  {
   "property": "C49",
   "status": "proved",
   "theorems": [
    "C49_no_wrong_state",
    "C49_slot_blocked",
    "C49_clear_repairs",
    "C49_torn_state",
    "C49_torn_state_same_answers",
    "C49_torn_state_served_refuted"
   ],
   "note": "C49_no_wrong_state assumes that no proper prefix of a serialization decodes, which is false of beacon states with pending consolidations; C49_torn_state and C49_torn_state_served_refuted treat real state files without that assumption."
  },
  {
   "property": "C50",
   "status": "proved",
   "theorems": [
    "C50_checkpoint_root",
    "C50_boundary_state",
    "C50_served"
   ],
   "note": ""
  },
  {
   "property": "C51",
   "status": "proved",
   "theorems": [
    "C51_accepted_journal",
    "C51_cross_check_agrees",
    "C51_detects_wrong_pre"
   ],
   "note": "The executor is arbitrary in C51_accepted_journal and the modelled guest in C51_cross_check_agrees."
  },
  {
   "property": "C52",
   "status": "proved",
   "theorems": [
    "C52_host_input_accepted",
    "C52_only_exits_can_fail",
    "C52_host_builds_input"
   ],
   "note": "Host and guest composed; the tree shape comes from Spec/Beacon.v."
  },
  {
   "property": "C53",
   "status": "proved",
   "theorems": [
    "C53_patches_exact"
   ],
   "note": ""
  },
  {
   "property": "C54",
   "status": "proved",
   "theorems": [
    "C54_patch_exact",
    "C54_honest_exits_accepted",
    "C54_no_exits_accepted",
    "C54_skipped_epoch_refuted",
    "C54_two_queues_refuted",
    "C54_boundary_ejection_refuted"
   ],
   "note": "Three refutations show honest inputs that the guest rejects."
  },
  {
   "property": "C55",
   "status": "proved",
   "theorems": [
    "C55_guest_repeats_preflight",
    "C55_guest_commits_prediction"
   ],
   "note": "Word size of the guest is arbitrary; the registry bound is explicit."
  },
  {
   "property": "C56",
   "status": "proved",
   "theorems": [
    "C56_only_voters_matter"
   ],
   "note": ""
  },
  {
   "property": "C57",
   "status": "proved",
   "theorems": [
    "C57_host_collects",
    "C57_preflight_reaches_next_finality",
    "C57_pipeline"
   ],
   "note": "Composition of C39-C41, C11, C52, C55."
  },
  {
   "property": "C58",
   "status": "proved",
   "theorems": [
    "C58_inputs_in_order",
    "C58_ending",
    "C58_one_shot",
    "C58_files",
    "C58_continuous",
    "C58_journals_link",
    "C58_next_pre_state"
   ],
   "note": "Views of the node are a list of any length; two steps are linked by C58_next_pre_state."
  },
  {
   "property": "C59",
   "status": "proved",
   "theorems": [
    "C59_crash",
    "C59_journal_means_input",
    "C59_stale_journal_refuted",
    "C59_torn_input_rejected"
   ],
   "note": "Crash semantics is an inductive relation over write prefixes."
  },
  {
   "property": "C60",
   "status": "proved",
   "theorems": [
    "C60_log",
    "C60_honest_sync",
    "C60_stops_on_failure_refuted"
   ],
   "note": "C60_stops_on_failure_refuted: sync continues after a failed verification."
  },
  {
   "property": "C61",
   "status": "proved",
   "theorems": [
    "C61_round_trip",
    "C61_only_encodings",
    "C61_one_version",
    "C61_order_irrelevant",
    "C61_injective",
    "C61_layout",
    "C61_well_formed",
    "C61_size"
   ],
   "note": "SSZ containers are written out from the SSZ specification (ssz_rs is not available here); fields are identified with their encodings, the structure inside lists of variable-size elements (phase 0 only) is not modelled."
  },
  {
   "property": "C62",
   "status": "proved",
   "theorems": [
    "C62_first_accepts",
    "C62_accepted_agree",
    "C62_second_accepts",
    "C62_transparent",
    "C62_exact",
    "C62_error_is_first",
    "C62_both_accept_refuted",
    "C62_asserted_exact",
    "C62_different_parameters",
    "C62_asserted_second",
    "C62_asserted_error_is_first",
    "C62_streaming_is_grouping",
    "C62_streamed_same_attestations",
    "C62_streamed_accepts",
    "C62_streamed_exact",
    "C62_streamed_error_is_first",
    "C62_streamed_keeps_errors",
    "C62_streamed_is_whole_refuted"
   ],
   "note": "First for lists compared before they are consumed (C62_second_accepts then assumes equal chain specs), then (streamed) for attestations compared while they are consumed, as in the code, then (asserted) with the chain parameters compared too, which needs no such hypothesis. Refuted: that the second source accepts whatever the comparison accepts (balances are not compared), and that the streamed run always ends as the whole-list one (it may report an error before a difference further on is seen)."
  },
  {
   "property": "C63",
   "status": "proved",
   "theorems": [
    "C63_round_trip",
    "C63_truncated",
    "C63_prefix_free",
    "C63_decoded",
    "C63_accepted",
    "C63_written",
    "C63_unambiguous",
    "C63_platforms",
    "C63_guest_exact",
    "C63_committed_journal",
    "C63_cross_check",
    "C63_end_to_end",
    "C63_continuous",
    "C63_canonical_refuted"
   ],
   "note": "bincode 1.3, bitvec serde, alloy and SSZ formats are external and written out from their documentation. C63_end_to_end assumes that the built input is well-formed and that its encoding is shorter than 4 GiB. C63_canonical_refuted: the encoding is not canonical."
  },
  {
   "property": "C64",
   "status": "proved",
   "theorems": [
    "C64_one_chain",
    "C64_history",
    "C64_anchored",
    "C64_accountable_safety",
    "C64_agreement",
    "C64_explained",
    "C64_progress",
    "C64_deterministic",
    "C64_no_replay",
    "C64_same_epoch"
   ],
   "note": "The client itself is not code of the repository; README.md describes it. Soundness of the zkVM proof system is assumed by the definition of a proven journal. Weights of voters are in terms of the active sets each proof was checked against."
  },
  {
   "property": "C65",
   "status": "proved",
   "theorems": [
    "C65_exit_allowance",
    "C65_exits_exact",
    "C65_some_fork_in_force",
    "C65_forks",
    "C65_same_parameters",
    "C65_parameters",
    "C65_committees_fit",
    "C65_supported",
    "C65_versions",
    "C65_era",
    "C65_threshold",
    "C65_soundness",
    "C65_other_network",
    "C65_domains_differ",
    "C65_client_progress",
    "C65_client_safety",
    "C65_seed",
    "C65_recorded_mix"
   ],
   "note": "The YAML files are transcribed; parsing them and the values of the mainnet preset are external. The trusted root committing to a state of the trusted epoch (no skipped epoch boundary, no collision) remains a hypothesis of C65_soundness."
  },
  {
   "property": "C66",
   "status": "proved",
   "theorems": [
    "C66_regenerates",
    "C66_exact",
    "C66_every_validator_path",
    "C66_unknown_path",
    "C66_constants"
   ],
   "note": "The Rust text of the file is identified with the values of its functions; writing the file is not modelled."
  },
  {
   "property": "C67",
   "status": "proved",
   "theorems": [
    "C67_routes",
    "C67_urls_distinct",
    "C67_endpoint_kept",
    "C67_endpoint_kept_refuted",
    "C67_block",
    "C67_header",
    "C67_state",
    "C67_consensus_state",
    "C67_same_chain",
    "C67_no_lost_votes",
    "C67_node",
    "C67_uncached",
    "C67_cache_transparent",
    "C67_cache_genuine",
    "C67_cache_frozen",
    "C67_absence_not_cached",
    "C67_session_transparent",
    "C67_session_frozen",
    "C67_session_fresh"
   ],
   "note": "C67_endpoint_kept_refuted and C67_cache_frozen are the limits named in the statement. URL resolution, HTTP statuses and the cache mode are external, from their documentation; JSON is abstract. The command line tool does not use the cache."
  },
  {
   "property": "C68",
   "status": "proved",
   "theorems": [
    "C68_result_iff",
    "C68_permutes",
    "C68_shuffled_index",
    "C68_index_permutation",
    "C68_platforms",
    "C68_shuffle_permutes",
    "C68_committee",
    "C68_cache_iff",
    "C68_signers",
    "C68_guest_platform",
    "C68_guest_commits_prediction",
    "C68_truncated_pivot_refuted"
   ],
   "note": "shuffle_list (crate swap_or_not_shuffle) is external and its source is not in the repository; it is written out from its published algorithm in Model/Shuffle.v. The width in which the pivot is reduced is a parameter there: C68_truncated_pivot_refuted shows that it matters on the 32-bit guest."
  },
  {
   "property": "C69",
   "status": "proved",
   "theorems": [
    "C69_journal_means"
   ],
   "note": "The statement is self-contained (Spec/Meaning.v, with the constants of the specification). The RANDAO mix is the prover's: the program does not check it. That the trusted root commits to a state of the trusted epoch, and that no hash collides on the proofs, are hypotheses, as in C37 and C65."
  },
  {
   "property": "C70",
   "status": "proved",
   "theorems": [
    "C70_input_size",
    "C70_input_read",
    "C70_honest_chain"
   ],
   "note": "The converse of C69, in the terms of Spec/Meaning.v and Spec/Honest.v. That voters and exit epochs do not change between the trusted state and the targets is a hypothesis here, removed in C71. Keys with equal serializations are assumed to verify the same signatures."
  },
  {
   "property": "C71",
   "status": "proved",
   "theorems": [
    "C71_moving_chain"
   ],
   "note": "Spec/Moving.v says what may change. The two limits named in the statement (threshold with the trusted balances; target epochs within the lookahead of the trusted state) are real limits of the program, as is the single exit queue with consecutive patches: C54 refutes the claim without them."
  },
  {
   "property": "C72",
   "status": "proved",
   "theorems": [
    "C72_build_input",
    "C72_journals_link",
    "C72_sync"
   ],
   "note": "C71 along a run. What each look at the node shows is a hypothesis at each step (Spec/NetworkRun.v); linking assumes one chain that finalizes the past in the sense of C57."
  },
  {
   "property": "C73",
   "status": "proved",
   "theorems": [
    "C73_accountable",
    "C73_one_proof"
   ],
   "note": "C64 and C69 combined. The states behind the trusted roots (no collision, state of the checkpoint epoch or older because slots were empty, in which case the registry is that at the start of the epoch as in C74, fewer than 2^21 active validators) are hypotheses, as in C69 and C74. No hypothesis on the RANDAO mix: slashing evidence does not depend on committees."
  },
  {
   "property": "C74",
   "status": "proved",
   "theorems": [
    "C74_same_active",
    "C74_journal_means",
    "C74_ejection_refuted"
   ],
   "note": "C69 without the hypothesis that the state belongs to the trusted epoch. Finalization during the empty epochs and ejections are not known to the program; C74_ejection_refuted shows the limit for targets beyond the lookahead of the block's state."
  },
  {
   "property": "C75",
   "status": "proved",
   "theorems": [
    "C75_margin",
    "C75_documented",
    "C75_real_supermajority"
   ],
   "note": "Builds on C74 (so the trusted block may be older than its epoch) and C71 (what a moving registry keeps). C75_margin is the general statement, C75_documented the figures of the document; C75_exceeded shows a drift beyond the margin that loses two thirds. That the protocol keeps balances within the documented bounds is the hypothesis, not proved: rewards and penalties are not modelled."
  },
  {
   "property": "C76",
   "status": "proved",
   "theorems": [
    "C76_same_result",
    "C76_forged_trust",
    "C76_made_up_chain"
   ],
   "note": "C76_same_result: the trusted root is read only by the check of the block proof (simulation of the link loop with the finalized root replaced). C76_forged_trust: with the forgery of C23 in a short form, one chunk under the trusted root is enough. C76_made_up_chain: on mainnet and Sepolia, with the real codec, frame and shuffle, for every made-up chain that meets the conditions of C72, including the size of the forged input. C76_concrete computes one case with disjoint validator sets; C76_nonvacuous instantiates the network theorem. This is a defect of the code, stated as a theorem; C37 and C69 state what holds for proofs shallower than 64 levels."
  },
  {
   "property": "C77",
   "status": "proved",
   "theorems": [
    "C77_votes",
    "C77_votes_answered",
    "C77_votes_of_answers",
    "C77_constructor",
    "C77_same_error_refuted",
    "C77_validators",
    "C77_proof",
    "C77_workers_finish"
   ],
   "note": "futures-util's try_join_all and rayon's collect and reduce are external and written out from their documented behaviour (Model/Parallel.v). The steps of a worker are atomic; a panic inside a worker is excluded by hypothesis where the sequential function cannot panic. C77_same_error_refuted: with at most 30 requests the reported error depends on the order."
  },
  {
   "property": "C78",
   "status": "proved",
   "theorems": [
    "C78_bytes",
    "C78_quiet",
    "C78_answers",
    "C78_settled",
    "C78_one_writer",
    "C78_finishes",
    "C78_alone",
    "C78_unaffected_refuted",
    "C78_zeroed_balances_refuted",
    "C78_one_writer_states"
   ],
   "note": "POSIX semantics of open with truncation, read and write at the process's own offset is written out in Model/Shared.v; no state file is removed (the call of clear_states_before is commented out in the tool). C78_unaffected_refuted and C78_zeroed_balances_refuted are the limits named in the statement; what the guest then does with such a state is covered by the soundness theorems (C37, C69), since it checks everything against the trusted root."
  },
  {
   "property": "C79",
   "status": "proved",
   "theorems": [
    "C79_constant_node",
    "C79_collected_as_from_one_chain",
    "C79_later_changes_do_not_matter",
    "C79_states_do_not_change",
    "C79_prepared_as_from_one_node",
    "C79_predicted_as_from_one_node",
    "C79_guest_commits_the_transition",
    "C79_guest_commits_the_prediction",
    "C79_build_as_from_one_node_each",
    "C79_no_panic_refuted",
    "C79_prediction_refuted"
   ],
   "note": "Requests are numbered and each is answered by its own moment (Model/ChangingNode.v); C79_constant_node ties the numbered functions to those of Model/HostChain.v. The caching provider's answers enter prepare_over as a function, which C79_states_do_not_change justifies together with the fact that every failed request for a state ends the run. C79_no_panic_refuted and C79_prediction_refuted are the limits named in the statement."
  },
  {
   "property": "C80",
   "status": "proved",
   "theorems": [
    "C80_genesis_root_of_any_state",
    "C80_only_the_window_matters",
    "C80_runs_build_the_chains_inputs",
    "C80_runs_agree",
    "C80_same_files"
   ],
   "note": "Stated over the nodes of Model/CliRun.v with the window as a small specification (Spec/ReproSpec.v). The genesis validators root is modelled as that of the first cached state; C80_genesis_root_of_any_state shows that the choice of cache_provider.rs gives the same."
  },
  {
   "property": "C81",
   "status": "proved",
   "theorems": [
    "C81_result_depends_on_links_only",
    "C81_order_and_repetition_irrelevant",
    "C81_split_votes_refused",
    "C81_more_votes",
    "C81_fewer_votes"
   ],
   "note": "Spec/VotesSpec.v: the same reader with other attestations, and the links in order. C81_more_votes_unbounded_refuted shows that the bound on the balance is needed."
  },
  {
   "property": "C82",
   "status": "proved",
   "theorems": [
    "C82_state_is_read",
    "C82_written_state_is_read",
    "C82_nothing_is_made_up",
    "C82_answer_is_accepted",
    "C82_version_is_the_announced",
    "C82_incomplete_answer_is_refused",
    "C82_wrong_version_is_refused",
    "C82_saved_state_is_the_answered",
    "C82_file_determines_the_state",
    "C82_fields_are_the_answered",
    "C82_slot_is_the_answered",
    "C82_oldest_first_refuted",
    "C82_extra_member_refuted",
    "C82_checkpoints_are_read",
    "C82_header_is_read"
   ],
   "note": "Spec/StateJsonSpec.v is written from the consensus specification and the beacon API, the tables in Model/StateJson.v from the Rust types; ssz_types, alloy and Lighthouse's serde implementations are written out from their documentation. The text form of JSON is not modelled. C82_oldest_first_refuted and C82_extra_member_refuted are the limits named in the statement."
  },
  {
   "property": "C83",
   "status": "proved",
   "theorems": [
    "C83_recorded_depth_is_harmless",
    "C83_entries_needed",
    "C83_entries_by_depth",
    "C83_entries_of_any_proof",
    "C83_recorded_depth",
    "C83_recorded_depth_suffices_refuted",
    "C83_two_more_suffice"
   ],
   "note": "The growth of a Rust Vec (doubling, at least 4) is external and written out in Model/StackUse.v. C83_recorded_depth_suffices_refuted is the limit named in the statement."
  },
  {
   "property": "C84",
   "status": "proved",
   "theorems": [
    "C84_values_in_range",
    "C84_fields_are_the_answered",
    "C84_well_formed",
    "C84_headers_are_well_formed",
    "C84_state_tree",
    "C84_answered_state_root",
    "C84_header_tree",
    "C84_answered_header_root",
    "C84_root_determines_the_value",
    "C84_root_determines_the_state",
    "C84_checkpoint_determines_the_state"
   ],
   "note": "Spec/HashTreeRoot.v writes out SSZ merkleization over the types of Spec/StateJsonSpec.v; ssz_rs is external. C84_well_formed discharges sd_state, sd_header, ta_mixes and ta_exits of C52/C69/C70 for answered states. C84_checkpoint_nonvacuous: the all-zero Fulu state with a hash function that is checked to have no collision on it. Across versions the root is not claimed to tell states apart."
  },
  {
   "property": "C85",
   "status": "proved",
   "theorems": [
    "C85_host_finalized",
    "C85_host_checkpoints",
    "C85_host_header",
    "C85_host_slot",
    "C85_host_state",
    "C85_host_block_header",
    "C85_block_is_read",
    "C85_written_block_is_read",
    "C85_values_in_range",
    "C85_incomplete_block_is_refused",
    "C85_electra_needs_requests",
    "C85_attestations_are_the_answered",
    "C85_older_blocks_are_unsupported",
    "C85_collecting",
    "C85_block_root",
    "C85_block_header_wf",
    "C85_root_determines_the_block",
    "C85_block_of_checkpoint",
    "C85_client",
    "C85_empty_slot",
    "C85_answers_are_well_typed",
    "C85_json_step",
    "C85_build_input",
    "C85_sync",
    "C85_host_block"
   ],
   "note": "Spec/BlockSpec.v is written from the consensus specification and the beacon API; the block types of ethereum_consensus, ssz_rs and Lighthouse's attestation codec are external and written out from documentation. C85_json_step turns a step of a node that answers in JSON (Spec/JsonRun.v) into one of C72. Non-vacuity: Props/JsonToy.v and JsonNodeToy.v give a server with five full states (65536 mixes each) and six blocks whose roots are linked by the toy hash, and two steps of finality on it. Props/AskedProps.v and PinnedProps.v say, both ways and request by request, what the host takes from such a node's answers (C85_host_block, finalized, checkpoints, header, slot, state, block_header)."
  },
  {
   "property": "C86",
   "status": "proved",
   "theorems": [
    "C86_paths",
    "C86_any_time",
    "C86_quiet",
    "C86_finished",
    "C86_repaired",
    "C86_every_process_ends",
    "C86_same_chain",
    "C86_complete_pair_stays_refuted",
    "C86_pair_of_one_process_refuted"
   ],
   "note": "Spec/DataDirSpec.v: the bytes of each file of an input, agreement of processes, a file being open. The granularity is one file-system call; a call transfers any number of bytes up to what it was given. C86_same_chain gives the agreement from C80. C86_complete_pair_stays_refuted and C86_pair_of_one_process_refuted are the limits named in the statement."
  },
  {
   "property": "C87",
   "status": "proved",
   "theorems": [
    "C87_verification",
    "C87_checks",
    "C87_input_registry",
    "C87_guest_active",
    "C87_guest",
    "C87_reading",
    "C87_r0vm_is_native",
    "C87_prepared_keys"
   ],
   "note": "Spec/PlatformSpec.v: a registry below the bound. guest_side is the program on 32-bit words with its own copy of the shuffle, host_side the same on 64-bit words. C87_verification is exact equality of outcomes, errors and panics included, for every data source. C16_guest_32bit_refuted shows that the bound is needed."
  },
  {
   "property": "C88",
   "status": "proved",
   "theorems": [
    "C88_effects",
    "C88_ssz_is_native",
    "C88_r0vm_only_refuses",
    "C88_mode_does_not_matter",
    "C88_verified_is_provable",
    "C88_log",
    "C88_inputs_fit",
    "C88_honest_verify",
    "C88_honest_sync",
    "C88_honest_build",
    "C88_first_line_refuted"
   ],
   "note": "Model/Command.v is the program from its subcommand to its effects. Spec/CommandSpec.v: a faithful zkVM, inputs that fit the guest, steps that can be proved, logs whose lines follow on. Argument parsing and failing file-system calls are not modelled (the latter are in C86). C88_first_line_refuted: the start of the first log line is the state the node gave for the start slot; only its finalized epoch is used."
  },
  {
   "property": "C89",
   "status": "proved",
   "theorems": [
    "C89_too_weak",
    "C89_exactly",
    "C89_for_good"
   ],
   "note": "Spec/ShareSpec.v: valid votes with the balances T (active) and V (unslashed voters), the rules of the chain and of the tool, nodes that show the same window. The conditions on the chain are those of C70. C89_for_good holds for any error of the preparation."
  },
  {
   "property": "C90",
   "status": "proved",
   "theorems": [
    "C90_parse_iff",
    "C90_unambiguous",
    "C90_too_deep",
    "C90_round_trip",
    "C90_only_such_values",
    "C90_truncated",
    "C90_ask",
    "C90_not_json",
    "C90_cut_off",
    "C90_types_refuse_null",
    "C90_state_is_read",
    "C90_states_are_read",
    "C90_written_state",
    "C90_written_block",
    "C90_build_input",
    "C90_sync"
   ],
   "note": "Spec/JsonSyntax.v is the grammar of RFC 8259 with UTF-8 (RFC 3629) as relations; Model/JsonText.v the reader. serde_json is external: the reader is written from its documentation. A number that is not a natural below 2^64 is represented like null (no type here reads either); numbers too large for a double, which serde_json refuses, are taken. The examples of C85 are now on a node that answers with text."
  },
  {
   "property": "C91",
   "status": "proved",
   "theorems": [
    "C91_entries",
    "C91_described",
    "C91_loads",
    "C91_refused",
    "C91_repeated",
    "C91_missing",
    "C91_layout",
    "C91_networks",
    "C91_numbers",
    "C91_bases",
    "C91_numbers_only",
    "C91_versions",
    "C91_schedule"
   ],
   "note": "Model/ConfigText.v holds both files byte for byte; Model/ConfigYaml.v reads flat files (other YAML: nothing is said) and models serde's treatment of fields. C91_entries: which texts are read and as what (Spec/FlatYaml.v); C91_described and C91_loads: the parameters are those described, both ways; C91_refused with C91_repeated and C91_missing; C91_layout; C91_numbers, C91_bases, C91_numbers_only, C91_versions: the scalars; C91_networks: the two files; C91_schedule: a line that schedules Gloas."
  },
  {
   "property": "C92",
   "status": "proved",
   "theorems": [
    "C92_read",
    "C92_unambiguous",
    "C92_order",
    "C92_program",
    "C92_refused",
    "C92_twice",
    "C92_missing",
    "C92_help",
    "C92_bad_level",
    "C92_environment",
    "C92_defaults",
    "C92_runs",
    "C92_log"
   ],
   "note": "Model/Args.v writes out what clap 4.5 (external) does with the attributes in the program; the tests of URLs and log levels are parameters. C92_read: exact, both ways, against Spec/CommandLine.v; C92_unambiguous, C92_order; C92_program ties it to the run of the command (Model/Command.v), C92_refused to nothing being done; C92_twice, C92_missing, C92_help, C92_bad_level: particular refusals; C92_environment, C92_defaults. Where the files are put is C78; the rate limit and the retry interval have no further effect in the model. Props/WordsProps.v: C92_runs spells out what each subcommand is run with, C92_log when a run has a log."
  },
  {
   "property": "C93",
   "status": "proved",
   "theorems": [
    "C93_checked_in",
    "C93_read_back",
    "C93_any_table",
    "C93_regenerated",
    "C93_success",
    "C93_failure",
    "C93_short_write",
    "C93_forgets"
   ],
   "note": "Model/GenText.v: the committed file byte for byte, the lines of the generated functions and the one write. Spec/GenSource.v reads the subset of Rust these files use. C93_checked_in ties Model/Gindices.v to the committed text; C93_read_back and C93_any_table: the text means what was computed; C93_regenerated; C93_success, C93_failure, C93_forgets, C93_short_write: what a run leaves. quote, syn and prettyplease are external: their layout is written out."
  },
  {
   "property": "C94",
   "status": "proved",
   "theorems": [
    "C94_built",
    "C94_rate",
    "C94_second",
    "C94_accounted",
    "C94_wait",
    "C94_no_limit",
    "C94_cached",
    "C94_no_cache",
    "C94_burst",
    "C94_command"
   ],
   "note": "Model/RateLimit.v; governor's limiter (generic cell rate algorithm) is external and written out from its documentation; overflow of its 64-bit times is not modelled. C94_built: the builder; C94_rate, C94_second: the bound in every window; C94_burst: exact at the start (the example burst_after_rest reaches the bound n + 1); C94_wait: progress; C94_accounted, C94_no_limit, C94_cached, C94_no_cache: nothing else than delay; C94_command: the tool's client."
  },
  {
   "property": "C95",
   "status": "proved",
   "theorems": [
    "C95_reads_back",
    "C95_cut",
    "C95_ok",
    "C95_file",
    "C95_path",
    "C95_lost",
    "C95_others",
    "C95_honest"
   ],
   "note": "Model/SyncLog.v prints the lines and says what becomes of the file; Spec/SyncReader.v reads such a file and knows only the format. C95_reads_back, C95_cut and C95_ok hold for all lists of lines and all error texts without ends of lines and tabs (those of the program are, contexts_plain); C95_file covers every amount of room; C95_path, C95_lost, C95_others and C95_honest are about whole runs of the tool. The Debug output of Lighthouse's and alloy's types is from their documentation; what anyhow appends to a failed comparison is left out."
  }
 ]
}