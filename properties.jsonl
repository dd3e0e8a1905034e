{"id": "C01", "title": "Applying a link follows the FFG rule exactly", "statement": "Applying a supermajority link source->target to a valid consensus state (justified j, finalized f) succeeds exactly when source = j and target.epoch > j.epoch. The result justifies target; it finalizes source when target.epoch = source.epoch+1 and keeps f otherwise. Every other link is rejected, and an epoch that would overflow u64 is an error, not a wrap.", "quantifier": "every consensus state and every link, including all u64 boundary epochs", "why_tests_cant": "Unit tests try a dozen small epochs; the rule is an equivalence over 2^64 epochs and all roots.", "anchors": ["core/src/consensus_state.rs: ConsensusState::state_transition", "core/src/lib.rs: Link, Checkpoint"]}
{"id": "C02", "title": "Consensus state stays valid and only moves forward", "statement": "Starting from a valid consensus state, after any sequence of accepted links the state is valid (finalized epoch < justified epoch, or the all-zero state), the justified epoch has strictly increased with each link and the finalized epoch has never decreased.", "quantifier": "every valid start state and every finite sequence of links", "why_tests_cant": "Histories of links are unbounded; only induction covers them.", "anchors": ["core/src/consensus_state.rs: is_valid, state_transition"]}
{"id": "C03", "title": "Link reconstruction inverts link application", "statement": "If applying a link to a valid state s gives t, then asking for the link between s and t returns exactly that link; and whenever a link is returned for (s,t), applying it to s gives exactly t. 'No link' is returned exactly when s = t. (One exception, refuted with a witness: from the all-zero genesis state the link to epoch 1 is applied but cannot be reconstructed.)", "quantifier": "all pairs of states and all links", "why_tests_cant": "Fixtures are finite; the two functions must be inverse on the whole domain.", "anchors": ["core/src/consensus_state.rs: transition_link, state_transition"]}
{"id": "C04", "title": "Link reconstruction rejects everything unsupported", "statement": "The link between two states is an error whenever the second state is invalid, older, changes finality without new justification, finalizes anything but the previous justified checkpoint, or has a 2-epoch gap (2-finality error); saturating epoch subtraction never lets a wrong pair through.", "quantifier": "all pairs of states including u64 boundary epochs", "why_tests_cant": "The accepted set is characterised as an iff; tests only sample rejections.", "anchors": ["core/src/consensus_state.rs: transition_link, less_or_equal", "core/src/lib.rs: Checkpoint::less_or_equal"]}
{"id": "C05", "title": "Consensus-state ABI codec is a bijection on valid states", "statement": "Encoding a valid state yields exactly 128 bytes and decoding them (even with trailing bytes) returns the same state; two different states never encode to the same bytes; decoding never yields an invalid state (it panics or errors).", "quantifier": "all valid states and all byte strings", "why_tests_cant": "Round-trip and injectivity over 2^640 states.", "anchors": ["core/src/consensus_state.rs: abi_encode, abi_decode, abi_encoded_size", "core/src/abi.rs: State, Checkpoint"]}
{"id": "C06", "title": "Journal layout is fixed and injective", "statement": "The public journal is always 288 bytes: pre-state in bytes 0..128, post-state in 128..256, finalized slot big-endian in the last word. Splitting at 128 as the host does and decoding both parts returns the pre- and post-state; different (pre,post,slot) give different journals.", "quantifier": "all pre/post states and slots", "why_tests_cant": "Layout must hold for every value a verifier contract may see.", "anchors": ["core/src/abi.rs: Journal", "methods/guest/src/lib.rs: entry", "host/src/bin/zkasper_cli.rs: run_verify"]}
{"id": "C07", "title": "A successful verification is an atomic finalization chain", "statement": "If verification returns (post, slot) then the attestations decompose into consecutive groups whose links form a chain from the input's justified checkpoint, each link starting at the previous target with increasing epochs; only the last link spans exactly one epoch (apart from the genesis zero-state), the post-state is (finalized = last source, justified = last target), finality changed exactly once and slot is the slot reported for the finalized root.", "quantifier": "every configuration, every input source, every attestation list", "why_tests_cant": "Needs induction over arbitrary attestation sequences and arbitrary readers.", "anchors": ["core/src/verify.rs: verify", "core/src/consensus_state.rs: state_transition", "docs/src/01_consensus_algorithm.md: Atomic Finalization"]}
{"id": "C08", "title": "Every accepted link has a supermajority of distinct active unslashed validators", "statement": "If verification succeeds, each accepted link has a duplicate-free set of validators, all active at the link's target epoch, whose unslashed effective balance times the threshold quotient is at least the total active balance times the threshold factor. No validator is counted twice within a link, however many aggregates contain it, and whatever RANDAO mixes the prover supplies.", "quantifier": "every configuration, input source, attestation list, RANDAO value and shuffling function", "why_tests_cant": "Overlapping aggregates and adversarial seeds are unbounded.", "anchors": ["core/src/verify.rs: verify, process_attestation", "core/src/input_reader.rs: get_total_balance"]}
{"id": "C09", "title": "Every counted validator signed exactly that link", "statement": "If verification succeeds, every validator counted for a link belongs to an attestation in the input whose source and target are that link, whose slot lies in the target epoch, whose index is 0, and whose aggregate signature verified over the signing root of that attestation data under the attester domain of the fork active at the target epoch and the trusted genesis validators root, with that validator's public key among the aggregated keys.", "quantifier": "every input source and attestation list", "why_tests_cant": "Quantifies over all accepted inputs, not the sampled honest ones.", "anchors": ["core/src/verify.rs: process_attestation, is_valid_indexed_attestation"]}
{"id": "C10", "title": "Accepted links respect lookahead limit and supported forks", "statement": "If verification succeeds every accepted link's target epoch is at most trusted epoch + lookahead limit, strictly greater than the trusted epoch (except from the all-zero genesis state, where it is still greater than the finalized epoch), and its fork lies between the configured minimum and maximum; hence the new finalized and justified epochs are within the limit too.", "quantifier": "every configuration, chain spec and input", "why_tests_cant": "The code comment argues a passing saturating subtraction is harmless; that is a claim over all histories.", "anchors": ["core/src/verify.rs: validate_link", "core/src/config.rs: is_supported_version"]}
{"id": "C11", "title": "Verification accepts every well-supported chain (completeness)", "statement": "If the attestation list is a concatenation of nonempty groups for the links of an atomic finalization chain, each link within lookahead and fork bounds, every attestation well formed with a valid signature over its committees, and each group's unslashed balance meets the threshold and 2/3, then verification succeeds with exactly the chain's final state.", "quantifier": "every such input", "why_tests_cant": "Liveness side of the iff; tests only cover a few harness chains.", "anchors": ["core/src/verify.rs: verify"]}
{"id": "C12", "title": "Verification depends only on the data it reads (replay)", "statement": "Two input sources that agree on chain spec, genesis root, consensus state, attestations and, at each link's target epoch, on fork, active validators and the RANDAO mix used, and on the slot of the finalized block, give the same verification outcome. So an input recorded in preflight replays identically.", "quantifier": "all pairs of input sources", "why_tests_cant": "A relational property over all executions.", "anchors": ["core/src/verify.rs: verify", "host/src/input_reader/preflight_input_reader.rs: PreflightInputReader"]}
{"id": "C13", "title": "Two-thirds floor whatever the configuration", "statement": "Whatever threshold factor and quotient are configured (including zero), verification never succeeds for a link whose unslashed attesting balance is below two thirds of the total active balance.", "quantifier": "every configuration and input", "why_tests_cant": "Misconfigurations are unbounded.", "anchors": ["core/src/verify.rs: verify (sanity assert)"]}
{"id": "C14", "title": "Accountable safety", "statement": "If two verifications that trust the same registry and start from the same consensus state finalize conflicting checkpoints (different roots at one epoch, or the later chain's justified checkpoints skip the earlier finalized one), then there are two links accepted by them that are a double vote or a surround vote, and validators holding at least (2*threshold - 1) of the total weight signed both.", "quantifier": "every pair of accepted inputs over the same registry", "why_tests_cant": "Adversarial pairs of histories.", "anchors": ["core/src/verify.rs: verify", "docs/src/01_consensus_algorithm.md: Theorem 2"]}
{"id": "C15", "title": "85% threshold covers the documented balance drift", "statement": "If the balances seen from the trusted state meet the configured threshold and the real balances drift within the documented bounds (increase A, decrease E, slashed S) with 2A+E+3S at most 3*threshold-2 of the total, the real attesting balance is still at least 2/3 of the real total. For the default threshold and lookahead limit 4 and the documented mainnet figures, the documented margin leaves room for 4.9 million slashed ETH.", "quantifier": "all balances and drifts", "why_tests_cant": "Arithmetic inequality over all reals/integers.", "anchors": ["docs/src/02_balance_drift.md", "core/src/config.rs: DEFAULT_CONFIG"]}
{"id": "C16", "title": "Committees partition the active set", "statement": "For an initialised committee cache, the committees of all slots and indices of the epoch, concatenated in order, are exactly the shuffled list; hence every active validator is in exactly one committee of exactly one slot of the epoch and no other index is in any. This needs committee arithmetic that fits the platform's word: on the 32-bit guest with 2^21 active validators the last committee cannot be computed (refuted).", "quantifier": "every seed, active set and committee count", "why_tests_cant": "Every registry size and seed.", "anchors": ["core/src/committee_cache.rs: initialized, get_beacon_committee, compute_committee_range"]}
{"id": "C17", "title": "Shuffled position lookup is the inverse of the shuffling", "statement": "For an initialised cache, the position reported for a validator is p exactly when the shuffled list holds that validator at p; validators not active get none.", "quantifier": "every seed and active set", "why_tests_cant": "All sizes.", "anchors": ["core/src/committee_cache.rs: shuffled_position"]}
{"id": "C18", "title": "Committee lookups are confined to the cache's epoch", "statement": "A committee is returned only for slots of the epoch the cache was built for and indices below the committee count; every other request is an error and never a wrong committee. Building a cache with no validators or zero committees is an error.", "quantifier": "every slot and index", "why_tests_cant": "All u64 slots.", "anchors": ["core/src/committee_cache.rs: get_beacon_committee, initialized"]}
{"id": "C19", "title": "Attesting indices are exactly the set bits", "statement": "Attesting indices of an attestation are computed only if committee bits are in range, each selected committee has at least one set bit and the bitfield length equals the total size of the selected committees; the result is exactly the members at set positions of the concatenated committees, and when the shuffling is a permutation its size equals the number of set bits.", "quantifier": "every attestation and cache", "why_tests_cant": "Every bitfield.", "anchors": ["core/src/attestation.rs: get_attesting_indices"]}
{"id": "C20", "title": "Multiproof root computation accepts exactly tree encodings", "statement": "Root calculation succeeds with r exactly when the descriptor is the pre-order encoding of a full binary tree with at least two leaves, the data starts with that many 32-byte chunks and r is the tree's Merkle root. All other descriptors panic or error; trailing data is ignored.", "quantifier": "every descriptor and data", "why_tests_cant": "Every bit string, any depth.", "anchors": ["ssz-multiproofs/src/multiproof.rs: calculate_compact_multi_merkle_root"]}
{"id": "C21", "title": "Reported generalized indices are tree positions", "statement": "For a descriptor encoding a tree of depth below 64, the k-th reported generalized index is the position of the k-th leaf; indices are distinct and reported in left-to-right order.", "quantifier": "every tree of depth < 64", "why_tests_cant": "Every tree.", "anchors": ["ssz-multiproofs/src/multiproof.rs: GIndexIterator"]}
{"id": "C22", "title": "Multiproof binding", "statement": "If a multiproof of depth below 64 verifies against the root of a Merkle tree T, then every (index, value) it reports for a position of T is the true node at that position, unless a hash collision is exhibited.", "quantifier": "every multiproof, tree and hash function", "why_tests_cant": "Adversarial proofs.", "anchors": ["ssz-multiproofs/src/multiproof.rs: Multiproof::verify, values, get"]}
{"id": "C23", "title": "Multiproof binding without a depth bound (fails)", "statement": "Any multiproof that verifies against the root of T reports only true nodes of T (no depth restriction). Refuted: generalized indices wrap modulo 2^64, so a proof deeper than 64 levels below an attacker-chosen leaf chunk reports arbitrary values for any index.", "quantifier": "every multiproof", "why_tests_cant": "The counterexample needs a depth >= 64 descriptor no test has.", "anchors": ["ssz-multiproofs/src/multiproof.rs: GIndexIterator::next"]}
{"id": "C24", "title": "Builder and verifier agree", "statement": "For any Merkle tree and any nonempty set of positions below the root none of which is an ancestor of another, the built multiproof verifies against the tree's root and its values are exactly the requested (position, node) pairs in left-to-right order.", "quantifier": "every tree and every antichain of positions", "why_tests_cant": "All trees and index sets.", "anchors": ["ssz-multiproofs/src/builder.rs: MultiproofBuilder::build, compute_proof_indices_and_value_mask, compute_proof_descriptor", "ssz-multiproofs/src/multiproof.rs"]}
{"id": "C25", "title": "Index comparison is lexicographic on binary strings", "statement": "The builder's ordering of two 64-bit indices equals comparing their binary representations as strings.", "quantifier": "all pairs of u64", "why_tests_cant": "2^128 pairs.", "anchors": ["ssz-multiproofs/src/builder.rs: cmp_binary_lexicographically"]}
{"id": "C26", "title": "Builder misuse: nested, root or empty index sets", "statement": "A proof of depth below 64 never reports a position together with one of its ancestors, so a nested request is never answered; requesting nothing panics in the builder and requesting only the root never yields a proof that verifies.", "quantifier": "every tree", "why_tests_cant": "API misuse space.", "anchors": ["ssz-multiproofs/src/builder.rs: build"]}
{"id": "C27", "title": "Values view is the masked node list", "statement": "The reported values are exactly the reported nodes whose mask bit is set, in order; lookup by index returns the first such node; the typed extraction step fails on a missing value or a different index and never skips one.", "quantifier": "every multiproof", "why_tests_cant": "All masks.", "anchors": ["ssz-multiproofs/src/multiproof.rs: values, get, next_assert_gindex"]}
{"id": "C28", "title": "Generated indices match the SSZ layout", "statement": "Every generated generalized index equals the SSZ generalized index of its field path, for the Electra and the Fulu beacon state, the block header and, for every validator index below 2^40, the validator fields; distinct validators/fields have distinct indices.", "quantifier": "all validator indices", "why_tests_cant": "2^40 indices.", "anchors": ["core/src/guest_gindices.rs", "host/src/bin/gen_gindices.rs", "host/src/beacon_state.rs"]}
{"id": "C29", "title": "Trusted state fields come from the trusted root", "statement": "If the guest accepts an input whose block, state and validators proofs have depth below 64 and the finalized root is the root of a block header whose state root is the root of a beacon state, then the genesis root, slot, fork, finalized epoch, earliest exit and consolidation epochs used are those of that state, unless a hash collision is exhibited.", "quantifier": "every input and every true state", "why_tests_cant": "Adversarial inputs.", "anchors": ["core/src/input_reader/guest_input_reader.rs: into_reader, extract_beacon_block_multiproof, extract_beacon_state_multiproof"]}
{"id": "C30", "title": "Validator registry cannot be forged or truncated", "statement": "If validator extraction succeeds on a verified proof of depth below 64 against the root of a validator list, then for every validator of the list: either it is extracted with exactly its public key bytes, balance, slashed flag and epochs, or it exited by the trusted epoch; nothing else is extracted. Unless a hash collision is exhibited.", "quantifier": "every proof and validator list", "why_tests_cant": "Adversarial proofs, any registry size.", "anchors": ["core/src/input_reader/guest_input_reader.rs: extract_validators_multiproof", "core/src/bls.rs: has_compressed_chunks"]}
{"id": "C31", "title": "Honest registry proofs are accepted", "statement": "For every validator list, the proof the host builds for it is accepted by the guest's extraction and yields every validator not exited at the trusted epoch.", "quantifier": "every validator list", "why_tests_cant": "Any registry size.", "anchors": ["host/src/input_reader/preflight_input_reader.rs: to_input", "core/src/input_reader/guest_input_reader.rs: extract_validators_multiproof"]}
{"id": "C32", "title": "Registry updates equal the Electra rules", "statement": "When the finalized epoch does not exceed the current epoch, the guest's registry update equals the consensus-spec process_registry_updates up to ejections, and touches nothing but eligibility and activation epochs; ejections the spec would do cannot change activity before current epoch + 1 + max seed lookahead.", "quantifier": "every registry and epoch", "why_tests_cant": "All registries.", "anchors": ["core/src/input_reader/guest_input_reader.rs: process_registry_updates", "core/src/lib.rs: is_eligible_for_activation_queue, is_eligible_for_activation"]}
{"id": "C33", "title": "State patches cannot change who is active within the lookahead", "statement": "If patch validation succeeds with trusted epoch >= 1, then for every epoch up to trusted epoch + max seed lookahead the active set with patches equals the active set without them. At trusted epoch 0 this fails (saturating previous-epoch lookup) - refuted with a witness.", "quantifier": "every patch set and registry", "why_tests_cant": "Adversarial patches.", "anchors": ["core/src/input_reader/guest_input_reader.rs: validate_state_patches", "core/src/state_patch.rs: is_active_validator"]}
{"id": "C34", "title": "Patched exits respect the churn limit", "statement": "If patch validation succeeds, within each patch the total effective balance of newly exiting validators is at most churn*(1 + latest exit epoch - earliest allowed exit epoch), despite 64-bit wrap-around in the budget, and every newly patched exit epoch is at least the earliest allowed exit epoch and replaces a never-exiting validator's exit epoch.", "quantifier": "every patch set", "why_tests_cant": "Adversarial patches with wrap-around.", "anchors": ["core/src/input_reader/guest_input_reader.rs: validate_state_patches, get_balance_churn_limit"]}
{"id": "C35", "title": "Active set used by the guest is determined by the trusted root", "statement": "For an accepted input whose trusted state lies in the trusted epoch (>= 1), the validators the guest treats as active at an epoch between trusted epoch and trusted epoch + max seed lookahead are exactly those of the proven registry with activation_epoch <= epoch < exit_epoch; patches, registry updates and prover choices do not matter.", "quantifier": "every accepted input", "why_tests_cant": "Adversarial witness data.", "anchors": ["core/src/input_reader/guest_input_reader.rs: into_reader, active_validators"]}
{"id": "C36", "title": "Reported finalized slot is the block's slot", "statement": "If the guest's slot lookup for a root succeeds (proofs of depth below 64) and the root is the root of a block header, the slot is that header's slot, unless a hash collision is exhibited; duplicate or unrelated proofs cannot change it.", "quantifier": "every input", "why_tests_cant": "Adversarial proofs.", "anchors": ["core/src/input_reader/guest_input_reader.rs: into_reader, slot_for_block"]}
{"id": "C37", "title": "End-to-end guest soundness", "statement": "If the guest commits a journal, it is the encoding of (pre, post, slot) where pre is the input consensus state, and, for shallow proofs and no hash collision, each link from pre to post is signed by a supermajority of the validators active at its target epoch in the state committed by pre's finalized root; otherwise the guest aborts without committing.", "quantifier": "every guest input", "why_tests_cant": "All inputs an adversarial prover can supply.", "anchors": ["methods/guest/src/lib.rs: entry", "core/src/input_reader/guest_input_reader.rs: into_reader", "core/src/verify.rs: verify"]}
{"id": "C38", "title": "Seed index selection", "statement": "The RANDAO index used for the committees of an epoch is (epoch + 65536 - min_seed_lookahead - 1) mod 65536 regardless of whether usize is 32 or 64 bits; overflow is an error.", "quantifier": "all epochs", "why_tests_cant": "Guest is 32-bit, host 64-bit.", "anchors": ["core/src/input_reader.rs: get_seed, get_randao_mix"]}
{"id": "C39", "title": "Host link collection replays", "statement": "When the host collects links until new finality it returns states s, t and links such that applying the links to s in order gives exactly t, finality changes exactly at the last link, and t is the first state after s with different finality.", "quantifier": "every chain history", "why_tests_cant": "Unbounded histories.", "anchors": ["host/src/input_reader/host_input_reader.rs: get_justifications_until_new_finality"]}
{"id": "C40", "title": "Host groups attestations by link in order", "statement": "The attestations collected for a duplicate-free list of links are exactly the chain's attestations for those links, grouped contiguously in link order (block order within a link), so that verification's consecutive grouping recovers one group per link that has attestations.", "quantifier": "every chain and link list", "why_tests_cant": "All histories.", "anchors": ["host/src/input_reader/host_input_reader.rs: collect_attestations_for_links", "core/src/verify.rs: verify (chunk_by)"]}
{"id": "C41", "title": "Finding the confirming epoch", "statement": "The search for the epoch confirming a trusted checkpoint returns the first epoch after the checkpoint whose state finalizes exactly it, and reports an invalid checkpoint if finality passes the checkpoint's epoch first.", "quantifier": "every chain", "why_tests_cant": "Unbounded histories.", "anchors": ["host/src/input_reader/host_input_reader.rs: find_finalization_epoch"]}
{"id": "C42", "title": "State cache is transparent", "statement": "Over any sequence of requests, the caching provider returns for each slot what the underlying provider returned when that slot was first successfully requested, never asks again for a cached slot, and failures are not cached.", "quantifier": "every request sequence and provider behaviour", "why_tests_cant": "All histories.", "anchors": ["host/src/state_provider/cache_provider.rs"]}
{"id": "C43", "title": "State files", "statement": "After a successful save a state is read back at its slot; saving never overwrites; clearing before an epoch removes exactly the states with slot below the epoch's first slot.", "quantifier": "every operation sequence", "why_tests_cant": "All histories.", "anchors": ["host/src/state_provider/file_provider.rs", "host/src/state_provider/persistant_api_provider.rs"]}
{"id": "C44", "title": "Input framing", "statement": "The length-prefixed input frame decodes back to the input for every input shorter than 2^32 bytes; for longer inputs the prefix is truncated and does not (refuted beyond).", "quantifier": "every input", "why_tests_cant": "Sizes.", "anchors": ["host/src/bin/zkasper_cli.rs: encode_input_stdin"]}
{"id": "C45", "title": "Accumulated balances", "statement": "Total balance is the exact sum (at least one increment) independent of order, or an overflow error exactly when a partial sum exceeds u64.", "quantifier": "every validator list", "why_tests_cant": "All sizes.", "anchors": ["core/src/input_reader.rs: get_total_balance"]}
{"id": "C46", "title": "No panic while counting participants", "statement": "Once every attestation of a link has been processed, looking up the participants' records never panics: every participating index is an active validator; and the state-consistency assertion after a transition never fires.", "quantifier": "every input", "why_tests_cant": "All inputs.", "anchors": ["core/src/verify.rs: verify"]}
{"id": "C47", "title": "Chunk codecs", "statement": "Decoding a u64 or bool from the SSZ chunk of a value returns the value; bool decoding aborts on every non-canonical chunk; a public key matches two chunks exactly when they are its 48 bytes zero padded to 64.", "quantifier": "all chunks", "why_tests_cant": "2^256 chunks.", "anchors": ["core/src/input_reader/guest_input_reader.rs: u64_from_chunk, bool_from_chunk", "core/src/bls.rs"]}
{"id": "C48", "title": "Signing roots bind the link", "statement": "If two attestation data under two domains have the same signing root then they are the same data and the same domain, or a hash collision is exhibited; and equal attester domains imply equal fork versions and genesis roots up to the 28-byte truncation.", "quantifier": "all attestation data", "why_tests_cant": "Adversarial.", "anchors": ["core/src/verify.rs: is_valid_indexed_attestation"]}
{"id": "C49", "title": "Crash while saving a state", "statement": "If the program dies while a state file is being written, other slots are unaffected, and a later run that reads the partial file fails or gets a state of the same version in which every field is right except possibly the list that is stored last (so every field the program reads is right). Refuted: that the partial file is never taken for a state (an Electra or Fulu file cut between pending consolidations is). When the partial file does not decode, the slot stays unavailable (every request fails without asking the beacon node again and it cannot be saved again) until it is cleared, after which it is fetched and stored normally.", "quantifier": "every state, directory and crash point within the write", "why_tests_cant": "Every crash point.", "anchors": ["host/src/state_provider/file_provider.rs: save_state, state_at_slot, clear_states_before", "host/src/state_provider/persistant_api_provider.rs: state_at_slot"]}
{"id": "C50", "title": "State of a checkpoint", "statement": "The state served for a checkpoint has the checkpoint's block root, and on a linear chain it is the state of the last block at or before the first slot of the checkpoint's epoch, empty slots included; the chain's own checkpoint is always served when its states are available.", "quantifier": "every provider, chain and checkpoint", "why_tests_cant": "All patterns of empty slots.", "anchors": ["host/src/state_provider.rs: state_at_epoch_boundary, state_at_checkpoint"]}
{"id": "C51", "title": "Host cross-check of the guest", "statement": "When the CLI runs the verification in the zkVM it returns a state only if the guest's journal begins with the expected pre-state and the post-state computed on the host, and with the real guest program and the input's own pre-state the check never fails or panics: the zkVM run returns what the native run returns.", "quantifier": "every input, configuration and executor answer", "why_tests_cant": "All inputs.", "anchors": ["host/src/bin/zkasper_cli.rs: run_verify", "methods/guest/src/lib.rs: entry"]}
{"id": "C52", "title": "Inputs built by the host are accepted", "statement": "Whenever the host's sources deliver (trusted state, states and RANDAO mixes of the target epochs, active set, header of the last finalized block), the host builds a guest input; the guest accepts that input on any platform when the states at the target epochs show no exits that the trusted state lacks, and then answers every question of the verifier from the same data; in general nothing but the check of the patches' exits can reject a host-built input.", "quantifier": "every state, registry, attestation list and platform word size", "why_tests_cant": "Any registry and any state.", "anchors": ["host/src/input_reader/preflight_input_reader.rs: to_input", "core/src/input_reader/guest_input_reader.rs: into_reader"]}
{"id": "C53", "title": "State patches are exact", "statement": "A host-built input has a patch for exactly the target epochs of the attestations; each patch holds exactly the RANDAO mix that seeds that epoch, from the state at its first slot, and exactly the exit epochs in which that state differs from the trusted state (none for the trusted epoch).", "quantifier": "every state history and attestation list", "why_tests_cant": "All histories.", "anchors": ["host/src/state_patch_builder.rs", "host/src/input_reader/preflight_input_reader.rs: to_input"]}
{"id": "C54", "title": "Honest exits pass the exit check", "statement": "A patch passes the exit check exactly when its epoch is not before the trusted one, every exit concerns a known validator and is unchanged or replaces never-exiting by an epoch not before the earliest, and the new exits up to every horizon fit the accumulated churn (barring 64-bit overflow); hence patches of consecutive epochs that show what one exit queue of the protocol assigned always pass. Honest inputs may fail (refuted) when an epoch without a patch lies between, when exits come from both the exit and the consolidation queue, or when a validator is ejected at the boundary of the trusted epoch.", "quantifier": "every queue, event sequence and patch sequence", "why_tests_cant": "All event sequences.", "anchors": ["core/src/input_reader/guest_input_reader.rs: validate_state_patches"]}
{"id": "C55", "title": "The guest commits what the preflight predicted", "statement": "When the host has prepared an input and predicted a transition in its preflight run, and the guest's checks of that input pass (they always do if the target epochs show no new exits), the guest, on any platform, commits exactly that transition, provided that the voters of the target epochs are those of the trusted state, and the registry is small enough for the committee arithmetic; without agreement on the balances the guest can fail where the preflight succeeded.", "quantifier": "every chain, input, attestation list and platform word size", "why_tests_cant": "Any chain and any registry; two different data sources.", "anchors": ["cli: prepare_input", "host/src/input_reader/preflight_input_reader.rs", "core/src/input_reader/guest_input_reader.rs"]}
{"id": "C56", "title": "Only keys, balances and slashing status matter", "statement": "Verification has the same outcome for two data sources that agree on chain data, attestations and, at the target epochs, on index, key, effective balance and slashing status of the active validators, whatever they say about eligibility, activation and exit epochs or about other epochs.", "quantifier": "every pair of data sources", "why_tests_cant": "Pairs of arbitrary sources.", "anchors": ["core/src/verify.rs: verify"]}
{"id": "C57", "title": "From an honest chain to the committed transition", "statement": "If, after the trusted checkpoint, the chain finalizes a new checkpoint by links whose votes are valid, sufficient and included in time, and the voters have not changed since the trusted state, then the host finds exactly these links and votes, its preflight run ends in the chain's own next finalized state, the host prepares an input, and the guest, on any platform, commits the transition from the chain's state to that state.", "quantifier": "every chain, registry, link sequence and platform word size", "why_tests_cant": "Any chain and any registry; composition of every component.", "anchors": ["host/src/bin/zkasper_cli.rs: prepare_input", "host/src/input_reader/host_input_reader.rs: new", "methods/guest/src/lib.rs: entry"]}
{"id": "C58", "title": "A run of build-input", "statement": "In continuous mode, every input is for the epoch that the previous transition finalized, epochs ascend strictly, and an input is built only once the chain has finalized a later epoch; after a run of any length the files of each built epoch hold the framed input and the predicted journal and nothing else changed; on an honest chain every step is built, the guest run on the bytes of the input file commits the bytes of the journal file, and the pre-state of each journal is the post-state of the one before.", "quantifier": "every sequence of views of the node, of any length, and every prior directory content", "why_tests_cant": "Unbounded runs.", "anchors": ["host/src/bin/zkasper_cli.rs: main (Command::BuildInput), prepare_input, encode_input_stdin"]}
{"id": "C59", "title": "Crash while input files are written", "statement": "A crash at any point of writing an epoch's files changes no other file; the pair is then untouched or emptied input with the old journal, an empty journal with a prefix of the input, or the complete input with a prefix of the journal; running again repairs both; if there was no journal before, a non-empty journal means that the input is complete; the guest aborts on every incomplete input file. (Refuted: an old journal can remain beside an emptied input.)", "quantifier": "every crash point, including inside a write", "why_tests_cant": "Every crash point.", "anchors": ["host/src/bin/zkasper_cli.rs: main (Command::BuildInput)", "methods/guest/src/lib.rs: entry"]}
{"id": "C60", "title": "The sync log", "statement": "The log of a sync run is one path of transitions from the starting state with ascending finalized epochs; a line says Ok exactly if verification of the prepared input returned the predicted state; on an honest chain every line says Ok, with or without the zkVM. (Refuted: a failed verification does not stop the sync; it goes on from the predicted state.)", "quantifier": "every sequence of views of the node, of any length", "why_tests_cant": "Unbounded runs.", "anchors": ["host/src/bin/zkasper_cli.rs: run_sync, run_verify"]}
{"id": "C61", "title": "State files are read back as written", "statement": "A beacon state of any version (below 4 GiB) written to a state file is read back as exactly that state, version included, whatever the order in which the versions are tried; only encodings of states are accepted, no bytes are a state of two versions, and different states have different files.", "quantifier": "all seven state versions, all states, all byte strings and all orders of trying", "why_tests_cant": "The file carries no version tag, and the number of states and byte strings is unbounded", "anchors": ["host/src/beacon_state.rs:BeaconState", "host/src/state_provider/file_provider.rs:save_state", "host/src/state_provider/file_provider.rs:state_at_slot"]}
{"id": "C62", "title": "Comparing two data sources", "statement": "Verification over the reader that compares two data sources succeeds exactly when it succeeds over the first source and the second gives the same answers to everything the run reads, up to effective balances and exit epochs; the result is the first source's. If the balances agree too, the second source alone leads to the same result (without that it may be rejected). An error is the first source's error; a disagreement never ends in acceptance. Sources with different chain parameters are never accepted: the run panics before anything is read. All of this holds although the attestations are compared one by one while the run consumes them, so that an error may come out before a difference further on is seen.", "quantifier": "all pairs of data sources, configurations, attestation lists and states", "why_tests_cant": "The sources are arbitrary functions; which questions are asked depends on the whole run", "anchors": ["host/src/input_reader/assert_input_reader.rs:AssertInputReader", "core/src/verify.rs:verify"]}
{"id": "C63", "title": "Serialization of the guest input", "statement": "Every input that fits the platform is read back from its bytes, whatever follows them, and no input is read from bytes that were cut short. Different inputs have different bytes. Accepted are exactly the byte strings that begin with a value in the documented format, and the result is that value; whatever is accepted is well-formed. The 32-bit guest reads exactly those of the host's inputs that fit its platform and never a different input. Hence a committed journal, for any bytes given to the guest, has 288 bytes and decodes into two valid states of which the second finalizes a later epoch; the host's cross-check agrees with the guest without conditions on the input; and the guest, given the framed bytes of the input the host has built, commits the predicted journal. Other bytes may be read as the same input.", "quantifier": "all inputs, byte strings, truncation points, word sizes from 32 to 64 and data sources", "why_tests_cant": "Round trip and rejection are claims about all byte strings and all inputs", "anchors": ["core/src/serde_utils.rs:UncompressedPublicKey", "core/src/serde_utils.rs:DiskAttestation", "core/src/input_reader/guest_input_reader.rs:GuestInput", "methods/guest/src/lib.rs:entry", "host/src/bin/zkasper_cli.rs:run_verify"]}
{"id": "C64", "title": "A client that follows proofs", "statement": "A client that starts from a trusted state and accepts a proven journal whenever the first half is its own state, moving to the second half, has a finalized checkpoint supported by attestations: behind its journals lie guest inputs whose links form one chain of supermajority links, within the configured bounds, from the justified checkpoint it started with to the one it holds, through every checkpoint it held finalized; where the root a proof starts from commits to a beacon state the votes are those of that state's validators. Each journal finalizes at least one further epoch and at most the lookahead limit less one; no journal is accepted twice; the journals decide the state. If two clients that started alike hold conflicting finalized checkpoints, after any number of proofs each, two of their supermajority links violate a slashing condition, with the weight of the validators that signed both bounded below; without slashable votes the one behind lies on the chain of the one ahead.", "quantifier": "all initial states, all sequences of journals of any length, all pairs of clients, configurations and chain parameters", "why_tests_cant": "Safety concerns every pair of histories of any length a prover may choose", "anchors": ["README.md", "methods/guest/src/lib.rs:entry", "core/src/abi.rs:Journal", "core/src/verify.rs:verify", "core/src/consensus_state.rs:ConsensusState::state_transition"]}
{"id": "C65", "title": "The mainnet and Sepolia programs", "statement": "With the parameters of the two networks (fork schedule, presets, thresholds of 85 and 70 percent) host and guest use the same parameters, they meet the conditions of every other claim on 32 and 64 bits, and the committees of the 32-bit guest are exact for fewer than 2^21 active validators. A network's program commits a journal only for a state of the supported era: never the all-zero genesis state, trusted epoch at most four before Electra, every target in Electra or later; it finalizes one to three further epochs; and if the trusted root commits to a state of the trusted epoch, every link is signed by the network's percentage of that state's active validators, without further conditions. States of the other network are rejected, and votes for one network, or for Electra, have a different signing domain than votes for the other, or for Fulu, unless two messages agree in 28 bytes of their hashes. Two clients of a network in conflict show two slashable supermajority links; checked against the same active set, 70 percent (mainnet) or 40 percent (Sepolia) of the balance signed both. Patches of validator exits are accepted only for the exits the network's figures allow: not before the fifth epoch after the trusted one, and per epoch at most twice the larger of 128 ETH and 1/65536 of the active balance.", "quantifier": "both networks, all byte strings given to the guests, all epochs, all histories of clients", "why_tests_cant": "The era, the domains and the thresholds are claims about all inputs a prover may choose and all epochs", "anchors": ["chainspec/src/lib.rs:mainnet_spec", "chainspec/src/lib.rs:sepolia_spec", "chainspec/configs/mainnet.yaml", "chainspec/configs/sepolia.yaml", "methods/guest/src/bin/mainnet.rs:main", "methods/guest/src/bin/sepolia.rs:main", "core/src/config.rs:DEFAULT_CONFIG", "core/src/config.rs:SEPOLIA_CONFIG", "host/src/bin/zkasper_cli.rs:config_for"]}
{"id": "C66", "title": "The generator of the guest's tree positions", "statement": "Regenerating the file of tree positions, from the Electra or the Fulu state, reproduces the committed functions, with the same names and the same value at every index. For every container type and list of paths the emitted constants are the positions the SSZ specification gives; for every element type, list limit and path the function emitted for a field of a list element is right at every index if and only if the element's chunk count is a power of two, the position is no higher than the chunks and is among the first chunk-count positions of its level. Hence it is right for every path into a validator, also ones not generated yet, and wrong for some other types. A path the type does not have stops the program before it writes anything.", "quantifier": "all container and element types, paths, list limits and indices", "why_tests_cant": "The emitted formula is right for the present types and wrong for others; only an argument about all types tells which", "anchors": ["host/src/bin/gen_gindices.rs:gen_gindices", "host/src/bin/gen_gindices.rs:validators_gindices", "host/src/bin/gen_gindices.rs:beacon_gindices", "host/src/bin/gen_gindices.rs:block_gindices", "core/src/guest_gindices.rs"]}
{"id": "C67", "title": "The client of the beacon node", "statement": "A block or header is reported absent exactly when the node answers 404; an unreachable or failing node, an error status or an undecodable body is always an error. So whenever the host has collected votes, the node answered for every slot of the window and the votes are those of its blocks; and with a node that serves a chain the host collects exactly what it would collect from the chain. A state is accepted only under the version the node names; the consensus state is the current justified and the finalized checkpoint. Different requests go to different URLs. The endpoint's path is kept if it ends in a slash, otherwise its last segment and always its query are lost. With the optional cache answers are never made up, absence is never remembered, and nothing changes for a node that does not change; but a kept answer, also the finality of the head, is never refreshed.", "quantifier": "all nodes, also changing ones, endpoints, identifiers, sequences of requests and cache policies", "why_tests_cant": "Failures, races between node and client and sequences of requests are unbounded", "anchors": ["host/src/beacon_client.rs:BeaconClient", "host/src/beacon_client.rs:BeaconClientBuilder", "host/src/chain_reader.rs:ChainReader"]}
{"id": "C68", "title": "Committees are those of the consensus specification", "statement": "The in-place shuffle with cached hashes that the committee cache calls permutes its input for every hash, seed and round count, gives no result exactly for an empty list, more than 2^24 entries or zero rounds, and puts at every position the entry the specification's compute_shuffled_index names, which is a permutation of the indices for every hash. Hence every committee looked up is the specification's, and every vote behind an accepted finalization was signed by exactly the committee members the specification names for its bits, under the seed of the target epoch. With the pivot reduced in 64 bits every platform shuffles alike, so that the guest, with its own shuffle, commits what the host predicted; were the pivot cast to a 32-bit word first, it would not.", "quantifier": "all lists, seeds, round counts, hashes, platforms of at least 32 bits, registries and attestation lists", "why_tests_cant": "Equality with the specification must hold for every list length, seed and position; block boundaries at 256 positions and odd or even pivots are easily missed", "anchors": ["core/src/committee_cache.rs:initialized", "core/src/committee_cache.rs:get_beacon_committee", "core/src/verify.rs:compute_committees"]}
{"id": "C69", "title": "A journal means a supermajority of the specification's committees", "statement": "Whatever bytes the mainnet or Sepolia program is given: if it commits a journal, and the journal's first state names the block of a header whose state s belongs to that epoch and has fewer than 2^21 active validators, then the journal's second state is reached from the first by a chain of links that finalizes it; and for every link there is a 32-byte RANDAO mix under which each aggregate is a valid Electra attestation for the committees of the consensus specification over the registry of s (90 shuffling rounds, 32 slots, at most 64 committees of about 128), signed with the registered keys of exactly its attesting indices in the domain of that network and fork, and the unslashed validators among them hold at least 85 percent (Sepolia: 70) of the active balance.", "quantifier": "every byte string given to the program, every hash, key and signature function, every header and state the first root commits to, every link and attestation", "why_tests_cant": "a test runs one input with one registry; that the program accepts nothing weaker must hold for all inputs a prover can invent", "anchors": ["methods/guest/src/bin/mainnet.rs", "methods/guest/src/bin/sepolia.rs", "core/src/verify.rs: verify, process_attestation", "core/src/committee_cache.rs", "core/src/input_reader/guest_input_reader.rs"]}
{"id": "C70", "title": "On an honest chain the pipeline succeeds", "statement": "If a mainnet or Sepolia chain finalizes a checkpoint and then the next one, by links that hold 85 percent (Sepolia: 70) of the active balance under the consensus specification's committees, within four epochs of the trusted one, with includable aggregates signed by the registered keys and included in time, and voters and exits stay the same meanwhile, then the host, asking a node that serves this chain, prepares an input, and the 32-bit program, given the file's bytes, commits exactly the journal from the chain's first state to its second. No assumption is made on the encoding, the shuffle or the size of the input: the input's bytes are bounded by 400 per registry entry, 17100 per aggregate and 16 per patched exit, and every input that the host builds from typed answers is read back by the program from its bytes.", "quantifier": "every chain, registry below 2^22 entries, up to 2^17 aggregates, every hash and signature function", "why_tests_cant": "Completeness for every chain and registry; the committees of a real network are far too many to enumerate.", "anchors": ["host/src/bin/zkasper_cli.rs: prepare_input", "host/src/input_reader/preflight_input_reader.rs: to_input", "methods/guest/src/lib.rs: entry", "chainspec/src/lib.rs", "methods/guest/src/bin/mainnet.rs", "methods/guest/src/bin/sepolia.rs"]}
{"id": "C71", "title": "The pipeline succeeds while the registry moves", "statement": "The success of the pipeline on an honest chain (C70) survives what the protocol does to the registry between the trusted state and the target epochs: validators are added, activation and exit epochs beyond the lookahead are set, balances change, validators are slashed, and exits are assigned by one exit queue whose churn stays within twice the limit of the trusted registry. Needed besides: each link also reaches the threshold with the balances and slashing flags of the trusted state, the targets are consecutive epochs (in the sense of the patched exits), and target epochs are at most four beyond the epoch of the trusted state itself. Then the host prepares an input, and the 32-bit program commits exactly the journal from the chain's first state to its second.", "quantifier": "every chain, registry and sequence of exits, every hash and signature function", "why_tests_cant": "Completeness for every registry history; real exit queues and balance changes are far too many to enumerate.", "anchors": ["host/src/bin/zkasper_cli.rs: prepare_input", "host/src/input_reader/preflight_input_reader.rs: to_input", "core/src/input_reader/guest_input_reader.rs: validate_state_patches", "core/src/verify.rs: verify", "methods/guest/src/lib.rs: entry"]}
{"id": "C72", "title": "Following an honest chain for as long as it runs", "statement": "On mainnet and on Sepolia, run the input builder continuously against a node whose chain stays honest in the sense of C71. At every look at the node it either sees that nothing new is finalized and waits, or writes an input and a journal file for the next step of finality; it never stops. The guest program of that network, given the bytes of any input file, commits exactly the bytes of the journal file beside it. Consecutive journals link: each one starts in the state the previous one ended in. The sync command, with or without the zkVM run, logs success for every step and never stops.", "quantifier": "every number of steps and of looks at the node, every honest chain, every hash and signature function", "why_tests_cant": "A run is unbounded and each step depends on the state reached by all the previous ones.", "anchors": ["host/src/bin/zkasper_cli.rs: main, prepare_input, run_sync, run_verify", "methods/guest/src/lib.rs: entry", "methods/guest/src/bin/mainnet.rs", "methods/guest/src/bin/sepolia.rs"]}
{"id": "C73", "title": "Disagreement can be punished", "statement": "Two clients of the mainnet (or Sepolia) program start from the same trusted state and follow proofs. If they end with different finalized roots in one epoch, or the chain of the one ahead avoids the finalized checkpoint of the other, then the attestations inside the two sets of proofs contain slashing evidence in the terms of the consensus specification: two links, and for every unslashed validator that voted for both a pair of valid indexed attestations, signed by its registered key, that process_attester_slashing accepts. The guilty validators weigh at least the two supermajorities together less the whole stake, up to the drift of balances between the registries involved; with one proof each and a constant active set, at least 70 percent of the stake on mainnet and 40 percent on Sepolia.", "quantifier": "every pair of sequences of accepted proofs of any length, every registry, every hash and signature function", "why_tests_cant": "The conclusion is about all pairs of conflicting proof chains an adversary could produce.", "anchors": ["core/src/verify.rs: verify", "core/src/consensus_state.rs: state_transition", "methods/guest/src/lib.rs: entry", "docs/src/01_consensus_algorithm.md"]}
{"id": "C74", "title": "A trusted block that is older than its epoch", "statement": "The block of a checkpoint is older than the checkpoint's epoch when the slots before and at the start of the epoch are empty. If the mainnet or Sepolia program commits a journal whose trusted root commits to such a block and its state, every link of the journal is justified, in the sense of C69, under the registry at the start of the trusted epoch: the block's registry after the activations that the specification's epoch processing makes in the empty time with the block's finalized epoch. A link whose target is at most four epochs after the block's own state is justified under the block's registry itself. (Refuted: a target further ahead can count a validator that the specification ejected in the empty time.)", "quantifier": "every byte string given to the program, every number of empty epochs, every header and state the first root commits to, every hash, key and signature function", "why_tests_cant": "A test has one registry and one number of empty slots; the claim must hold for every input a prover can invent.", "anchors": ["core/src/input_reader/guest_input_reader.rs: into_reader, active_validators", "core/src/input_reader.rs", "core/src/verify.rs: verify", "methods/guest/src/lib.rs: entry"]}
{"id": "C75", "title": "A journal against the chain's own balances", "statement": "The program counts votes with the balances of the trusted state; the chain counts them later with its own. If the mainnet or Sepolia program commits a journal, and a later state of the chain keeps keys and adds or removes no activation or exit up to four epochs after the trusted epoch, then every aggregate of the journal is a valid vote for that later state too; and the unslashed voters hold two thirds of the active balance of that state, provided that what the non-voters gained (A), what the voters lost (E) and what the voters slashed since weigh (S) satisfy 2A+E+3S <= 55 percent of the trusted active balance (Sepolia: 10). The bounds of the project's drift document for 35475927 ETH and 1087747 validators over the program's four epochs, with 4.9 million ETH slashed, satisfy this.", "quantifier": "every byte string given to the program, every trusted state and later state, every change of balances and slashings, every hash, key and signature function", "why_tests_cant": "The document argues with real numbers about all ways balances can move; a test moves them once.", "anchors": ["docs/src/02_balance_drift.md", "core/src/config.rs: DEFAULT_CONFIG, SEPOLIA_CONFIG", "core/src/verify.rs: verify", "methods/guest/src/lib.rs: entry"]}
{"id": "C76", "title": "A chunk placed under a trusted root is enough to have a journal forged about it", "statement": "Index arithmetic in proof verification wraps at 64 bits (C23), and this reaches the journal. For every made-up chain - validators, keys, balances and votes all invented - there is a 32-byte chunk such that, if that chunk is a leaf anywhere under the root of a real trusted block (for instance in the graffiti of its body), there is an input for which the published guest program commits that the real root, at the epochs the made-up chain gives (which may be the real ones), was followed by the made-up finalized checkpoint, although no validator of the real chain signed anything. More generally, the trusted root influences the outcome only through the proof of the block's state root: any proof of the same state root under another root carries the same result over. (With proofs shallower than 64 levels this cannot happen: C37, C69.)", "quantifier": "every network, every hash function with 32-byte output and every signature scheme meeting the stated conditions, every made-up chain of the kind on which C72 shows the tool to work, every tree containing the chunk at a position of at most 10000 levels; the general form for every input, parameter set and decoder", "why_tests_cant": "Tests use proofs that the host builds; the attack uses proofs deeper than 64 levels, which no honest builder makes, and the claim is about all chains and positions.", "anchors": ["ssz-multiproofs/src/multiproof.rs: GIndexIterator, Multiproof::verify", "core/src/guest_input_reader.rs: into_reader, extract_beacon_block_multiproof", "core/src/verify.rs: verify", "methods/guest/src/lib.rs: entry", "Cargo.toml: profile.release overflow-checks"]}
{"id": "C77", "title": "The order of parallel work does not matter", "statement": "The host asks the beacon node for many blocks at the same time, spreads work on validators and proof nodes over threads, and iterates over hash sets. None of this shows in the result: in whatever order the answers arrive, however rayon cuts the lists and however its threads take turns, and whatever the iteration order of the sets, the collected votes, the active validators and the proof that is built are the same as when everything is done one after the other; it fails exactly when the sequential program fails. With more than 30 requests (always, with 32 slots per epoch) the reported error is the same too; with fewer it may be a different one. Nothing waits for ever once every request is answered and every thread gets its turns. If the node changes its mind while it answers, the votes are still those of one chain made of blocks the node reported.", "quantifier": "every chain, link list, arrival schedule, cut of the lists into pieces, sequence of turns (including turns after another thread's failure), hash order, tree oracle and index list", "why_tests_cant": "A test sees the few schedules that happen on the test machine.", "anchors": ["host/src/input_reader/host_input_reader.rs: collect_attestations_for_links, HostInputReader::new, active_validators", "ssz-multiproofs/src/builder.rs: build, compute_proof_indices_and_value_mask"]}
{"id": "C78", "title": "Processes may share a data directory, within limits", "statement": "Several runs of the tool may use the same data directory. Whatever the interleaving of their file-system calls, with crashes and failed calls, every byte of a state file is the right byte for its slot or zero, and no longer than the right file. When nobody is writing a file and no write of it has failed, the file is exactly right or absent, however many processes have written it; once it is there and nobody is writing it, it never changes again and every request that starts afterwards gets the right state. Every request ends, whatever the others do. A request that nobody disturbs does what the sequential program does. If two processes never write the same file at the same time, a request gets the state, an error, or the state with a shortened last list (as in C49). Limits: a process can fail only because another one has just written the file; and with two simultaneous writers a third process can be served a state with the right form in which all balances are zero, although the node is honest and no call fails.", "quantifier": "every directory, number of processes, slot list, interleaving of single file-system calls (reads and writes of any size), crash point, failing call and honest node; the last limit for every beacon state from Bellatrix on", "why_tests_cant": "Tests run one process at a time; the interleavings that matter need three processes in a window of milliseconds.", "anchors": ["host/src/state_provider/persistant_api_provider.rs: state_at_slot", "host/src/state_provider/file_provider.rs: save_state, state_at_slot", "host/src/bin/zkasper_cli.rs: main (data_dir)"]}
{"id": "C79", "title": "A node may change its answers while an input is prepared", "statement": "While build-input or sync prepares an input, the beacon node may be reorganised, fall behind, or otherwise change its answers from request to request. Whatever it does, if the preparation succeeds, then the links, attestations, input and predicted consensus states are exactly those that a node which does not change would have led to, each of whose answers was given during the run to the same question. Changes that come after the first epoch with new finality and after the block window of the newly justified epoch have no effect. A beacon state that has been given for a slot is given for that slot for the rest of the process, whatever the sources do. The guest commits the predicted transition, with the slot of a header that really has the finalized root; if the node answers requests by root with the header that has the root, the whole predicted journal is the committed one, and the build-input loop writes the same files as against nodes that do not change within an iteration. Limits: the state that confirms the trusted checkpoint is asked for twice, and a reorganisation in between makes the program panic instead of reporting an error; the slot in the predicted journal is not checked against the root, so a node that first gives a wrong header makes the host write a journal that the guest does not commit.", "quantifier": "every sequence of answers of the beacon node to the requests of a run, every chain spec, trusted checkpoint, search depth below slot 2^64, provider behind the cache, host and guest platform (guest part under the conditions of C55)", "why_tests_cant": "Tests use a chain that does not change while it is read; the number of ways in which answers can change between requests is unbounded.", "anchors": ["host/src/input_reader/host_input_reader.rs: HostInputReader::new, find_finalization_epoch, get_justifications_until_new_finality, collect_attestations_for_links, slot_for_block", "host/src/input_reader/preflight_input_reader.rs: to_input", "host/src/bin/zkasper_cli.rs: prepare_input", "host/src/state_provider/cache_provider.rs: state_at_slot"]}
{"id": "C80", "title": "Inputs are reproducible", "statement": "What build-input produces for a finalized epoch (the input, the journal, or the error in their place) depends only on the answers about the slots from the epoch's block to the first epoch boundary at which a later epoch is finalized and on the headers of the checkpoints named in that window. It does not depend on when the node is asked, on what the chain does afterwards, on the head, on what the node calls finalized, or on how far the search is prepared to go. So two runs over any nodes that show the same chain in these windows, polled at any times and in any number, build the same sequence of inputs, of which one run may have got further; for an epoch built by both, the input and journal files have the same bytes. The genesis validators root is taken from whichever state is cached; when the states agree on it the choice does not matter, and the genesis state itself is not needed.", "quantifier": "every pair of sequences of nodes, poll times, start epochs below 2^64 - 1, chain specs with windows below slot 2^64, search depths reaching the window, continuous or one-shot mode", "why_tests_cant": "Tests build one input from one recorded node; reproducibility compares all pairs of runs over nodes that differ in unboundedly many other answers.", "anchors": ["host/src/bin/zkasper_cli.rs: prepare_input, build-input loop", "host/src/input_reader/host_input_reader.rs: HostInputReader::new, get_justifications_until_new_finality, collect_attestations_for_links", "host/src/input_reader/preflight_input_reader.rs: to_input"]}
{"id": "C81", "title": "Order, repetition and choice of votes do not matter", "statement": "With everything else the verifier reads fixed: two accepted lists of attestations that vote for the same links give the same new state and slot and name the links in the same order; attestations for one link may be given in any order and repeated without changing whether the list is accepted or with which result; a list in which the votes for a link are interrupted by votes for another link is never accepted; adding to an accepted list attestations for the same links, each of which occurs in some accepted list, leaves the result unchanged as long as three times the active balance is below 2^64 (without that bound an extra vote can make the list be refused); leaving some out, but not all for a link, leaves the result unchanged or is refused with ThresholdNotMet, and can abort only when the configured threshold is below two thirds or its quotient is zero.", "quantifier": "every configuration, reader, pair of attestation lists (any lengths, orders, multiplicities)", "why_tests_cant": "Tests verify a few recorded lists; the property compares all orders, repetitions, subsets and supersets of votes.", "anchors": ["core/src/verify.rs: verify, process_attestation"]}
{"id": "C82", "title": "How the answers of the beacon node are read", "statement": "A beacon state of any version, written in JSON as the beacon API prescribes (members in any order, further members at any depth, numbers with leading zeros, upper- or lower-case hexadecimal), is read as that version with exactly the values written, as long as it does not also carry, with the right type, everything that the next version adds. An answer is accepted only if it announces the version of the state that was read from it; an answer that announces another version or lacks any field of the announced version is refused, and no field is ever filled in. What is saved to the state file is read back as the same state, two different states never have the same file, and slot and fields are those of the answer. Finality checkpoints and block headers are read as written. (Refuted: trying the oldest version first would read a Fulu state as an Altair state; an Electra state with a member of the name and type that Fulu adds is read as a Fulu state, and therefore refused when announced as Electra.)", "quantifier": "every version from Phase0 to Fulu, every value of every field, every JSON value, order of members and set of additional members; file part for encodings below 4 GiB", "why_tests_cant": "Tests read a few recorded states; the untagged choice between seven versions with overlapping fields has to be right for every state and every additional member.", "anchors": ["host/src/beacon_state.rs: BeaconState, deserialize", "host/src/beacon_client.rs: get_beacon_state, VersionedResponse, BlockHeaderResponse, CheckpointResponse, FinalizedCheckpointResponse", "host/src/state_provider/file_provider.rs: save_state"]}
{"id": "C83", "title": "The stack of proof verification", "statement": "The depth recorded in a multiproof never changes the outcome of verification (as far as that much memory can be had). Verifying the proof of a tree holds, at its peak, exactly as many entries as computing that tree in pre-order needs: at least depth + 2 and at most twice the depth plus 1; both bounds are reached. For an invented proof there are never more entries than bits in its descriptor. What the builder records is, for every proof it builds, exactly two entries less than the verification needs. (Refuted: that the recorded depth is the maximum that the verification requires, as its documentation says; so every verification of a built proof moves its stack to new memory exactly once, which two more entries would avoid.)", "quantifier": "every proof, descriptor, data and hash function; builder part for every oracle and request", "why_tests_cant": "The peak depends on the shape of the proof tree, of which there are unboundedly many; tests check that verification succeeds, not what it uses.", "anchors": ["ssz-multiproofs/src/multiproof.rs: calculate_compact_multi_merkle_root, calculate_max_stack_depth", "ssz-multiproofs/src/builder.rs: build"]}
{"id": "C84", "title": "The state the host works with is the answered one, and its root fixes it", "statement": "Whatever a node answers, a state that was read is a value of its type: numbers in range, lengths as prescribed or within limits; the slot, fork, registry, mixes, checkpoints, last header and exit queue fields that the host uses are those of the answer, by name, and meet every requirement that the other properties make of a node's states and headers. For Electra and Fulu the tree from which the host builds its proofs is the one SSZ prescribes for the answered values, so the root is the hash_tree_root of the state the node shows; the same holds for the header in the state and for answered headers. Without a collision of the hash function in the two computations, two answers of a version with the same root are equal in every field, and a trusted checkpoint fixes the state that any two runs accept for it, including the fields that no proof covers. (Refuted: the latter when the hash function has collisions.)", "quantifier": "every answer, version and value of every field; every hash function with 32-byte results, for injectivity without collision among the messages hashed for the two states", "why_tests_cant": "States have millions of entries and no test can compare all states with the same root; the statement is about every pair of answers.", "anchors": ["host/src/beacon_state.rs: BeaconState, slot, fork, latest_block_header, validators, randao_mixes", "host/src/state_provider.rs: state_at_checkpoint", "host/src/preflight_input_reader.rs: to_input"]}
{"id": "C85", "title": "Blocks as the node answers them, and runs against a node that is only JSON", "statement": "A block of any version, written in JSON as the beacon API prescribes (members in any order, further members at any depth), is read with exactly the values written and as that version, a Fulu block as an Electra block, as long as it does not also carry what the next version adds; a block that lacks something every version has is refused, and one without execution requests is not taken for an Electra block. The version that the answer announces is ignored. Of an Electra block the host collects exactly the attestations it shows, in order, with all bits, data and signatures, or fails if a signature is no point; blocks before Electra are reported as unsupported. The tree the host hashes for a block has the block's hash_tree_root, two blocks of a version with the same root are equal without a collision, and a block with the root of the trusted checkpoint is the one the trusted state names. A slot counts as empty only if the node answers 404. Hence, for a node of which nothing is assumed but what its answers say about an honest chain, build-input and sync run without end: every step of finality gets its files, every input is accepted by the guest with the journal written, and sync verifies every step.", "quantifier": "every version, every value of every field, every JSON value and set of additional members, every endpoint and server, every sequence of looks at a node whose answers may change in between", "why_tests_cant": "Tests read a few recorded blocks; that nothing more than the chain's honesty is needed of a node's answers is a statement about all answers to all requests in runs of any length.", "anchors": ["host/src/beacon_client.rs: get_block, get_block_header, get_finality_checkpoints, get_beacon_state, BlockResponse", "host/src/conversions.rs: TryAsBeaconType, try_as_beacon_type", "host/src/input_reader/host_input_reader.rs: collect_attestations_for_links", "host/src/bin/zkasper_cli.rs: build-input, sync"]}
{"id": "C86", "title": "Several processes may build inputs in one data directory", "statement": "Any number of processes may build inputs in the same data directory, for the same network or for different ones, with their writes interleaved in any way, writes that transfer fewer bytes than asked, calls that fail and processes that are killed. Different files never share a path: not those of different networks, epochs, input and journal, nor a state file. As long as the processes for a network build the same input for the same epoch (which they do when the nodes they ask show the same chain, whatever epoch each started at), then at every moment every file is as it was before or holds only right bytes and zeros; a file that nobody has open is as it was before or complete; when all processes are through, the files are what they would be had the processes run one after another; a file that no process builds is never touched; and a process whose calls do not fail gets through. A complete pair may be emptied again while another process rewrites it. Processes that do not agree can leave the input of one beside the journal of another.", "quantifier": "every number of processes, networks, epochs and inputs, every initial content of the directory, every interleaving, every pattern of short writes, failing calls and kills", "why_tests_cant": "Tests run one process at a time in a fresh directory; the interleavings, crash points and short writes are unbounded in number.", "anchors": ["host/src/bin/zkasper_cli.rs: build_input, Network, data_dir, input and journal files", "host/src/state_provider.rs: FileProvider"]}
{"id": "C87", "title": "The guest on 32-bit words and the host on 64-bit words do the same", "statement": "The same verification runs compiled for the 32-bit zkVM guest and for the 64-bit host. For the Mainnet and Sepolia parameters and every input that the guest can read with fewer than 2^21 public keys (more generally: fewer than 2^21 validators active at the epochs voted for), the two runs end in the same way: the same checks pass or fail, verification returns the same state or the same error, and both commit the same journal or both abort. This holds for inputs nobody prepared honestly as well. So verify and sync with --mode r0vm give exactly the outcome of the native mode, with the same error if they fail. What the guest cannot read it aborts on, and what it reads the host reads as the same input. An input that the tool prepares has no more public keys than the trusted state has validators. At 2^21 active validators the two platforms differ.", "quantifier": "every input as bytes, every data source with a registry below the bound, both networks, every signature and hash function, every sane key codec", "why_tests_cant": "The guest runs in a zkVM and the host natively; a test compares them on a few inputs, never on inputs made up by a prover or on all registry sizes.", "anchors": ["core/src/verify.rs: verify", "core/src/committee_cache.rs: CommitteeCache", "core/src/input_reader/guest_input_reader.rs: GuestInput::into_reader", "methods/guest/src/lib.rs: entry", "host/src/bin/zkasper_cli.rs: run_verify, ExecMode"]}
{"id": "C88", "title": "What each command of the tool does, in every execution mode", "statement": "verify, sync and build-input, for Mainnet and Sepolia, run with that network's chain parameters, verification settings and guest program. verify and sync write no inputs or journals; sync writes a log only if asked to; verify reports a post-state exactly when it ends well; sync and build-input --continuous never end well by themselves; build-input without --continuous ends well exactly when it has built one input, for the epoch it was given. --mode ssz behaves exactly as native. With a zkVM that runs the guest as it is, --mode r0vm gives the same reports, log and ending as native, for all inputs that fit the guest; with any zkVM, even a wrong one, a good ending with r0vm is one that native also has, with the same state, and the zkVM committed that state and a pre-state finalized at the given epoch. When verify ends well, in any mode, the reported step can be proved: the network's guest program commits it on some input. Log lines follow on from each other and go up in the finalized epoch, and where a line says Ok its end state can be proved from a state with the finalized epoch at the start of the line. On an honest chain verify reports the next finalized state, sync logs Ok for each step and build-input builds every step, in every mode. The first line of the log does not name the state the verified step starts at: that is refuted by an example.", "quantifier": "both networks, all commands and arguments, every sequence of nodes and answers, every zkVM where stated", "why_tests_cant": "Tests run one command in one mode against recorded data; the claim compares modes for every input and covers answers a node has never given.", "anchors": ["host/src/bin/zkasper_cli.rs: main, Command, ExecMode, run_sync, run_verify, execute_guest_program, prepare_input"]}
{"id": "C89", "title": "A step of the chain with too few votes for the tool", "statement": "The chain justifies a checkpoint when two thirds of the active balance vote for it; the tool asks for 85 percent (Sepolia: 70). On an honest chain an input for the step from a trusted checkpoint can be prepared if and only if each link of the step has the tool's share behind it, by the balances and the slashing status in the chain's own state at the start of the target epoch. If one has less, preparing fails with the threshold error of the first such link, which reports the balance of its unslashed voters and the required one. This stays so: every node that shows the same chain from the trusted checkpoint to the next finality gives the same error, whatever else it shows and however much later it is asked; verify and sync in every mode and build-input, started from that checkpoint, end in failure or wait, without a result, a log line or a file.", "quantifier": "both networks, every honest chain and every number and distribution of balances and votes, all commands and modes, all nodes and moments", "why_tests_cant": "The tests have one chain with equal balances just below the threshold; the claim is about every distribution of balances over votes and links, and about all later moments.", "anchors": ["core/src/verify.rs: verify, VerifyError::ThresholdNotMet", "core/src/config.rs: DEFAULT_CONFIG, SEPOLIA_CONFIG", "host/src/bin/zkasper_cli.rs: prepare_input, main, run_sync", "host/tests/sync.rs: chain_finalizes_but_zkcasper_does_not"]}
{"id": "C90", "title": "The text that the node answers", "statement": "The body of an answer is read as JSON exactly when it is a JSON text in UTF-8 (RFC 8259) with at most 127 nested arrays and objects, and it is read as the one value the text spells: blanks, escapes, surrogate pairs and the order of members make no other value, and no text spells two. A request gives a result exactly when the text spells a value that has the type asked for; everything else is an error. An answer that was cut off, at any byte, is an error and never another state, block or checkpoint. What a node writes for a state or block of any version is read as exactly that state or block, and the runs of build-input and sync (C85) hold for nodes that answer with text.", "quantifier": "every sequence of bytes as a body, every value, every place where a body may be cut off, all requests, states and blocks of all versions", "why_tests_cant": "Tests have a few recorded answers; the claim is about every text a node could send, in any layout or escaping, and about every prefix of it.", "anchors": ["host/src/beacon_client.rs: get_json, get_beacon_state, get_block, get_block_header, get_finality_checkpoints"]}
{"id": "C91", "title": "The chain parameters come from the text of the configuration files", "statement": "The chain parameters of a network are those that its YAML configuration file describes. A file of lines NAME: value, with blank lines and comments, is read as the entries it spells and no others. From the entries each fork gets its version and epoch (2^64-1, or no entry for a fork after Altair, meaning never; genesis at epoch 0), the churn limits their figures, the rest is the mainnet preset's. Comments, spacing, order and names that are not used make no difference. A file that lacks a required name, repeats a used name, has a number of 2^64 or more, a malformed version or another preset makes the program panic; no file gives parameters that it does not describe. The two files in the repository give exactly the parameters that all the other claims about Mainnet and Sepolia use, and one line added to either schedules the next fork without changing anything before it.", "quantifier": "every text made of such lines, every list of entries, both files, every epoch", "why_tests_cant": "Tests load the two files as they are; the claim is about every edit of them, in particular about edits that must not be accepted.", "anchors": ["chainspec/src/lib.rs: mainnet_spec, sepolia_spec", "chainspec/configs/mainnet.yaml", "chainspec/configs/sepolia.yaml"]}
{"id": "C92", "title": "What the command line means", "statement": "A command line of the tool is accepted if and only if it is options, one of the subcommands verify, sync and build-input, and that subcommand's options, each option spelled in one of its forms (--name value, --name=value, -x value, -x=value, -xvalue, or a flag), and if the options then stand for arguments: a value given on the command line goes before the environment (BEACON_RPC_URL, LOG_LEVEL) and that before the default (network Sepolia, native mode, ./data, no rate limit, one input, 60 seconds); numbers are decimal and within 64 bits (32 for the rate). It then means exactly these arguments, and the program runs that command for that network on that node. The order of the options on each side of the subcommand and their spelling make no difference. Options that are unknown, given twice, without a value, out of range or on the wrong side, and a missing URL, epoch or slot, make the program fail before it does anything. So do requests for help or the version (exit code 1), and an invalid LOG_LEVEL, even if --log-level is given, unless it is given on both sides of the subcommand.", "quantifier": "every list of words as a command line, every environment, every test of URLs and log levels, all nodes", "why_tests_cant": "There are infinitely many command lines; a test tries a few and none of those that should be refused.", "anchors": ["host/src/bin/zkasper_cli.rs: Args, Command, ExecMode, Network, main"]}
{"id": "C93", "title": "The file of tree positions says what the guest uses, and what a run of the generator leaves", "statement": "The committed file of tree positions defines exactly the functions, in order and with no name twice, whose values the rest of this model uses, for every validator index. The text that the generator writes for any state type defines exactly the functions it computed, with their values; so does the text for any table of names and positions. Regenerating from the Electra or the Fulu state changes one word of one comment of the committed file and nothing else. A run succeeds if and only if the file opens, the type has every path and the system takes some number of bytes of the one write; the file then holds that many bytes, however few. If two bytes or more are missing, what is left either is not a well-formed file or defines the first functions and lacks the last. A run that panics behind the opening of the file leaves it empty, whatever it held; one that cannot open it leaves it as it was.", "quantifier": "every state type, every table of names and positions, every number of bytes written, every former content of the file, every validator index", "why_tests_cant": "A test can compare one generated file with the committed one; it cannot show that other tables are written faithfully, or try every interrupted write.", "anchors": ["host/src/bin/gen_gindices.rs: main, gen_guest_gindices_impl, validators_gindices, PREAMBLE", "core/src/guest_gindices.rs"]}
{"id": "C94", "title": "The rate limit holds for every schedule, and does nothing else than delay", "statement": "A client built with a rate limit of n requests per second sends, in no stretch of time, more requests to the node than n + 1 and one per interval (a second divided by n, in whole nanoseconds), however the program's requests and the waiting requests' tries are interleaved: at most 2 n + 1 in a second if n divides a second into nanoseconds, and 3 n + 1 for any n up to a billion. From a fresh client exactly n of any number of simultaneous requests get through. A waiting request gets through at its next try once an interval has passed since the last request that was sent. Every request that was made is either waiting, or was sent, once, or was answered from the cache; nothing else is sent. Building a client never panics; the last rate given counts, 0 means no limit, and then no request waits. Whatever the order of the builder's calls, the cache comes first: a request that it answers is not sent and takes nothing from the limit; without a cache nothing is answered from one. The command line tool uses the limit that --rps stands for, none by default, and no cache.", "quantifier": "every sequence of builder calls, every schedule of requests, tries and kept answers in time, every window of time", "why_tests_cant": "The rate depends on the interleaving of concurrent requests in time; a test sees one schedule.", "anchors": ["host/src/beacon_client.rs: RateLimitMiddleware, BeaconClientBuilder::with_cache, BeaconClientBuilder::with_rate_limit, BeaconClientBuilder::build", "host/src/bin/zkasper_cli.rs: main"]}
{"id": "C95", "title": "The log of a sync run can be read back, also when it was cut short", "statement": "Whoever has the file that sync --log-path wrote can tell from its text alone every step of the run, in order, with the state it started from, the state it expected and its outcome, and the text of what failed. If the file was cut at any byte, it still gives exactly the steps whose lines are complete. A line ends in a tab and Ok if and only if its step was verified with the expected state. The steps read are one path: the first starts at the state the node gave for the slot asked for, each next one where the last ended, and the finalized epoch ascends; on an honest network every step is there and confirmed. The file is emptied before the first request, so a run that gets no first state leaves an empty log and fails; if the file cannot be created the run fails and the file is as before; if the disk is full the run fails and the file has the steps that fitted; no other command touches it.", "quantifier": "every list of log lines, every error text without ends of lines and tabs, every cut position, every amount of room on the disk, every node history and command", "why_tests_cant": "The states and texts printed, the byte at which a crash or a full disk cuts the file and the course of the run are unbounded; a test reads a few finished files.", "anchors": ["host/src/bin/zkasper_cli.rs: Command::Sync, log_sync", "core/src/consensus_state.rs: ConsensusState (Debug)", "core/src/lib.rs: Checkpoint (Debug)"]}
