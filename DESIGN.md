# Formal model of Signal-Ethereum in Rocq: design

Subject: `/repo` (Rust). Nothing is built or run; the model is transcribed by reading.
Proof assistant: Coq 8.16.1, standard library only.

## Layout

| directory | contents |
|---|---|
| `rocq/theories/Model/` | the code, function by function, as total Gallina functions. Each definition cites file and lines. No proofs. |
| `rocq/theories/Spec/`  | small independent specifications (FFG rule, Merkle trees, SSZ layout, ...). No use of model helpers. |
| `rocq/theories/Proof/` | lemmas. |
| `rocq/theories/Props/` | the theorems named in MANIFEST.json, one file per group, each followed by a non-vacuity `Example` and `Print Assumptions`. |

## Modelling conventions

* `Result<T,E>` and panics: `outcome E A := Ok a | Err e | Panic`. `assert!`, `unwrap`, `expect`,
  slice out of bounds and division by zero are `Panic`.
* `u64` is `N`; checked (`safe_*`), saturating (`Epoch`/`Slot` operators) and wrapping (plain operators,
  release profile without overflow checks: `methods/guest/Cargo.toml`) operations are separate functions.
* `&mut` becomes returned state. Loops become structural recursion on the data they consume.
* `BTreeMap<u64,_>` is an association list kept strictly sorted by key.
* Bytes are `Coq.Init.Byte.byte`; a chunk / root is a `list byte`.
* Everything outside the repository is either written out (from the public definition; recorded below) or
  is a universally quantified parameter of the theorems, never an axiom.

## Externals as parameters (theorems hold for every choice)

SHA-256 (`list byte -> list byte`, only assumption where used: 32-byte output), BLS
`fast_aggregate_verify`, public key compression, the shuffle (only assumption where used: it permutes; Model/Shuffle.v is an instance),
the fork schedule. The decoding of the guest input is a parameter except in C63, where it is bincode's format.
Merkle results are stated as "claim, or here are two different preimages with one hash".

## Externals written out (trusted transcriptions, from the public crates)

`safe_arith`; Lighthouse `Epoch`/`Slot` saturating operators, `compute_activation_exit_epoch`,
committee range helpers, `get_committee_count_per_slot`, `get_domain`, `compute_domain`, signing root,
`hash_tree_root` of `AttestationData`, `shuffle_list` (Model/Shuffle.v); alloy ABI encoding of static structs; itertools `chunk_by`.

## Properties: what is modelled and how it is proved

| id | plan |
|---|---|
| C01-C04 | model `consensus_state.rs`; spec is a two-rule relation; proofs by case analysis with `lia`, C02 by induction on the list of links |
| C05, C06 | ABI words as 32-byte big-endian strings; round trip and injectivity from a base-256 digit lemma |
| C07-C13, C45, C46 | model `verify.rs` over an abstract reader record; induction over link groups; participants as sorted duplicate-free sets |
| C14 | quorum intersection over weights, plus the surround/double vote argument over two accepted chains |
| C15 | integer inequality |
| C16-C18 | committee cache over an abstract shuffle; slices of a list at monotone cut points |
| C19 | induction over committee indices |
| C20-C22, C27 | stack machine against a tree parser; binding by induction on the proof tree |
| C23 | refutation: explicit construction of a 64-deep subtree, for every hash |
| C24-C26 | positions as bit paths; induction on the tree; comparison by bits |
| C28 | generic SSZ generalized-index function over field lists |
| C29-C31, C36, C47 | chunk codecs, SSZ trees for the containers, binding theorem C22 |
| C32-C35 | registry update and patch validation; invariants over patches |
| C37 | composition |
| C38 | arithmetic modulo 2^32 and 2^16 |
| C39-C41 | host loops with fuel; out-of-fuel excluded by the statement |
| C42, C43 | operation-sequence refinement of a finite map |
| C44 | little-endian digits |
| C48 | hash-tree-root injectivity up to collision |
| C49, C61 | state files: prefixes of writes; SSZ container codec with all seven state versions; the last list of a container is the only thing a prefix can lack |
| C50 | provider default methods over an abstract chain of states |
| C51 | the CLI's cross-check composed with the modelled guest program |
| C52, C53 | host input construction composed with the guest's checks; SSZ trees for state, header, registry; patches by induction over the recorded reads |
| C54 | exit queue of the protocol as a relation; the budget loop as a prefix-sum condition |
| C55, C56 | replay: simulation between the host's and the guest's reader over the verifier |
| C57 | composition of the host search, the verifier's completeness and C55 |
| C62 | verification is monotone in the reader's answers; reuse of the replay theorem C56; for the streamed comparison, the lazy link loop is the loop over groups, and an iterator that stops early can only turn an outcome into a panic; the chain parameters are compared first, and a run cannot tell sources with pointwise equal parameters apart |
| C63 | parser combinators; round trip, extension by trailing bytes, well-formed results and widening of the platform are each proved compositionally; the accepted language is given separately as a relation between values and bytes (Spec/InputFormat.v) and each parser is shown to accept exactly its part |
| C64 | guest runs composed along a client's journals (Spec/ClientSpec.v): induction on the history, the chain lemmas of C14 on the concatenated links |
| C65 | the transcribed parameters (Model/Networks.v) against the public figures (Spec/NetworkSpec.v, ForkSchedule.v, and Allowance.v for the balance that may exit per epoch); case analysis on the fork schedule for every epoch, then instances of C37, C48 and C64 with their conditions discharged |
| C66 | the emitted functions as values (Model/GenGindices.v); positions are linear in the position of the containing value (induction on the path), so the emitted formula and the specification are two linear functions of the index, compared by slope |
| C67 | URLs, statuses, decoders and the cache in Model/BeaconClient.v; answers against the relation `seen`; the host's functions depend on the chain pointwise (induction on the fuel), then C40; sequences of requests by induction with an invariant on the cache; the cache through sequences of calls in Props/SessionProps.v |
| C68 | the crate's loops in Model/Shuffle.v, compute_shuffled_index in Spec/ShuffleSpec.v; invariant of the inner loop (constant sum of the two positions, cached hash and byte), then per round and by induction over rounds; permutation by transpositions; committees by extensionality of slices |
| C69 | the meaning of a journal written out in Spec/Meaning.v from the specification, with literal constants; the reader's evidence for a link (C09) is translated to the registry of the committed state by equality of sorted lists, C68 for the committees, C65 for constants and versions |
| C70 | the converse of C69: an honest chain described in the specification's terms (Spec/Honest.v, Spec/Meaning.v) gives the reader's evidence for each link (committees by C68, constants by C65), then C57; the input's well-formedness and a bound on its encoded size follow the builder of multiproofs: number of leaves of a pruned tree against number of requested values |
| C71 | C70 for a moving registry (Spec/Moving.v): the changes allowed leave the active sets, committees and keys of the target epochs alone, so votes valid in the later state are valid in the trusted one; the exits pass the guest's check of patches by C54 |
| C72 | Induction over the looks at the node: each step is C71; the file's bytes decode to the input the host encoded (C63), the guest of the network is `entry` at the network's parameters (C65, C44), and linking is the confirming-state argument of C57 |
| C73 | C64's slashable links, each justified in the terms of C69 (C74 if the trusted block is older than its epoch); voters of both are in both aggregates' attesting indices, hence in a valid AttesterSlashing (Spec/Accountability.v); the weight is inclusion-exclusion on lists of indices |
| C74 | As C69, with the guest's registry updates split at the trusted epoch: those before it are the specification's activations folded over the empty epochs (Spec/Skipped.v), those after it cannot take effect within four epochs; activations in the empty time take effect more than four epochs after the block's state, which gives the second half |
| C75 | C74's justified links under the registry at the start of the trusted epoch; a registry that moves (C71) keeps active sets, committees and keys up to the lookahead, so the aggregates stay valid; the weight is linear arithmetic over sums of balances split into voters and others, slashed and not (Spec/Drift.v) |
| C76 | a simulation: two runs of `into_reader` and `verify` on inputs that differ only in the trusted root and the block proof agree, because the root is compared only with checkpoints of the same epoch; the forged proof of C23 with sibling subtrees replaced by their roots, so that its size is linear in the position; C72's construction of an accepted input for the made-up chain (Spec/Forged.v) |
| C77 | the order of events as an explicit schedule (Model/Parallel.v: answers arriving at polls, workers taking turns on pieces, iteration order of the hash sets), for all schedules; invariants of the join and of the worker pool, sorting is a function of the set (Spec/ParallelSpec.v) |
| C78 | requests of any number of processes as a transition system with one step per file-system call, request to the node, read or write of some bytes (Model/Shared.v); a crash is a request without further turns; invariants over all schedules (every byte right or zero; complete unless somebody is writing), explicit schedules for the refutations |
| C79 | the requests of a run numbered, request k answered by the k-th of arbitrarily many moments (Model/ChangingNode.v); from a successful run a chain that does not change is put together, slot by slot, from the answers given (each epoch state is asked for once, the confirming one twice, each block once), induction over the fuel of the two searches; cache by an invariant over sequences of requests; then C55 |
| C80 | two nodes of Model/CliRun.v that agree on a window of slots (Spec/ReproSpec.v); equality of what is prepared follows the requests one by one: boundary state, block, search for finality, justifications, blocks, verification (C12), patches; runs by induction over the list of looks at the node; files with C58 |
| C81 | one reader with two attestation lists (Spec/VotesSpec.v); the processed group is shown to be the sorted union of its attestations' participants, so it depends only on the set of attestations; accepted links form a chain with ascending targets, which fixes their order; threshold under sub- and supersets by monotony of the weights |
| C82 | JSON values and the serde tables of Model/StateJson.v against the JSON mapping and the container types of the consensus specification (Spec/StateJsonSpec.v, written separately); reading what is shown by induction over types; the order of the versions by the members each version adds; the state file with C28/C49's encoding |
| C83 | the root computation with the capacity, length and growth of its vector (Model/StackUse.v), which erases to Model/Multiproof.v; by induction over the proof tree, against the number of entries a pre-order computation needs (Spec/StackSpec.v) |
| C84 | SSZ merkleization over the types of C82 (Spec/HashTreeRoot.v) and the accessors that lead from a read state to the state of the other models (Model/StateView.v); the trees agree field by field; injectivity of roots by induction over types, with absence of collisions only among the messages hashed |
| C85 | block containers of the specification (Spec/BlockSpec.v) against the reader's tables and the untagged choice between six versions (Model/BlockJson.v); the conversion through SSZ by the codec lemmas of C63 and C82; the header of a block by the tree lemmas of C84; then the conditions of C72 that speak about the form of answers are discharged and the runs of C72 hold for a node that is nothing but a function from URLs to JSON (Spec/JsonRun.v); what the host takes from each kind of answer is stated both ways (Props/AskedProps.v, PinnedProps.v) |
| C86 | the file-system calls of every process as a list of remaining work, a schedule of turns of any length (Model/DataDir.v, with short writes, failing calls and processes that get no more turns); an invariant per path over all processes (untouched so far, or right up to the offset of some process that is still writing it); termination by the number of remaining calls and bytes; agreement of the inputs from C80 |
| C87 | the same verifier on both word sizes ([guest_side], [host_side] in Props/PlatformProps.v); equality of the two outcomes call by call through the links and committees (Proof/PlatformP.v), with the indices bounded by what a 32-bit program can decode (C63) and the committee arithmetic by C65 |
| C88 | the program from subcommand to effects (Model/Command.v) over a list of nodes, one per round of requests, with the zkVM as any function from program and standard input to journal; induction over the rounds; the modes by C87, honest runs by C72 |
| C89 | the verifier's answer to valid votes as a function of two balances (Proof/ShareP.v); the first weak link decides, by induction over the links; with C70 an equivalence; later moments by C80, commands by Model/Command.v |
| C90 | the reader of texts (Model/JsonText.v) against the grammar as relations (Spec/JsonSyntax.v): sound by induction on the fuel, complete by mutual induction over derivations, with the fuel bounded by the length of the text; truncation because an object ends only at its own brace; every value printed and read again |
| C91 | the two configuration files byte for byte (Model/ConfigText.v, generated) and a reader of flat YAML with serde's rules for fields (Model/ConfigYaml.v) against the texts of such files as relations (Spec/FlatYaml.v): the reader inverts the relation by induction on lines; the chain spec against what the entries describe, both ways; the two files by evaluation |
| C92 | a reader of command lines written out from clap's documentation (Model/Args.v) against the words that spell options and the arguments that options stand for, as relations (Spec/CommandLine.v): sound by induction on the number of words, complete by induction over the options; permutations of options by invariance of the look-up; what each subcommand is run with, and when it has a log, by C88_effects (Props/WordsProps.v) |
| C93 | the generator's lines for every table of names and positions (Model/GenText.v) and a small reader of such Rust files (Spec/GenSource.v); reading what was written by induction over the functions, cut files by induction over the lines; the committed file is in the model byte for byte and is read by computation |
| C94 | the client as a transition system over requests, tries and kept answers with times (Model/RateLimit.v); the rate by an invariant that relates the limiter's clock to the requests sent since any moment; every request accounted for by a permutation that each step preserves |
| C95 | the text of the log lines from the derived `Debug` output, and the file they go to with room for all, some or none of it (Model/SyncLog.v); a reader of such files written from the format alone (Spec/SyncReader.v); reading back by inverting each printed part, cuts by induction over the lines |
| C58-C60 | the CLI loops over a list of views of the node; disk as a function; crash as an inductive relation over write prefixes |

A property that turned out to be false as first stated keeps its full statement in `properties.jsonl`, with the
exception named there, and a theorem with suffix `_refuted` gives the witness.

## What is modelled, file by file

| file in /repo | model | not modelled |
|---|---|---|
| core/src/consensus_state.rs, abi.rs | Model/ConsensusState.v | Display, serde |
| core/src/verify.rs, input_reader.rs | Model/Verify.v | logging |
| core/src/committee_cache.rs, attestation.rs | Model/Committee.v | the shuffle is a parameter; Model/Shuffle.v is the instance |
| core/src/state_patch.rs, config.rs, lib.rs (types, `ensure!`) | Model/Types.v, Base.v | serde |
| core/src/guest_gindices.rs | Model/Gindices.v | |
| core/src/input_reader/guest_input_reader.rs, bls.rs | Model/GuestReader.v | BLS arithmetic (parameter) |
| core/src/serde_utils.rs, the derived serde of GuestInput and its parts | Model/InputCodec.v | formats of bincode 1.3, bitvec, alloy-primitives and Lighthouse's SSZ written out from their documentation; key and signature checks are parameters; memory limits |
| methods/guest/src/lib.rs | Model/Guest.v, Model/Cli.v (`guest_main`) | cycle counting, logging |
| methods/guest/src/bin/mainnet.rs, sepolia.rs | Model/Networks.v | test_harness.rs (reads spec and configuration from its input; both universally quantified elsewhere) |
| ssz-multiproofs/src/multiproof.rs, error.rs | Model/Multiproof.v, Model/StackUse.v (memory of the stack) | Display |
| ssz-multiproofs/src/builder.rs | Model/Builder.v | rayon's parallelism and hash order here (lists in order); they are in Model/Parallel.v |
| host/src/input_reader/host_input_reader.rs, chain_reader.rs | Model/HostChain.v, HostInput.v, ChangingNode.v (a node that changes between requests) | tracing; the interleaving of the requests is in Model/Parallel.v |
| host/src/input_reader/preflight_input_reader.rs, state_patch_builder.rs, conversions.rs | Model/HostInput.v, BlockJson.v (attestations) | |
| host/src/input_reader/assert_input_reader.rs | Model/AssertReader.v, Model/AssertStream.v (attestations compared while they are consumed; chain parameters compared first) | chain parameters that `verify` never reads are one flag (equal or not) |
| host/src/state_provider.rs, state_provider/*.rs | Model/HostStore.v | |
| host/src/beacon_state.rs | Model/StateFile.v (versions, SSZ bytes, accessors), Spec/Beacon.v (trees), Model/StateJson.v (JSON), Model/StateView.v (accessors used by the host) | |
| host/src/bin/zkasper_cli.rs | Model/Cli.v, CliRun.v, DataDir.v, Command.v, Args.v (clap is external: from its documentation), SyncLog.v (the log file; `Debug` of external types from their documentation) | tracing output, sleeping, help texts |
| host/src/bin/gen_gindices.rs, core/src/guest_gindices.rs | Model/GenGindices.v (values), Model/GenText.v (the text of the file, the committed file byte for byte, the writing) | the passage through tokens (quote, syn) and prettyplease's layout rules: the layout of these functions is written out |
| host/src/beacon_client.rs, chain_reader.rs | Model/BeaconClient.v; JSON of states, checkpoints and headers in Model/StateJson.v, of blocks in Model/BlockJson.v; the text of JSON in Model/JsonText.v (serde_json is external: from RFC 8259 and its documentation); the middlewares and the rate limit in time in Model/RateLimit.v (governor's limiter is external: from its documentation) | HTTP transport, redirects. Other models use it as the functions `nd_*`, `ch_*` and `api` |
| host/src/input_reader/test_harness_readers.rs, test_utils.rs, tests | | test code |
| chainspec/src/lib.rs, configs/*.yaml | Model/Networks.v, ConfigText.v, ConfigYaml.v | YAML beyond flat files of plain and single-quoted scalars (nothing is said about such a file); the fields of Lighthouse's Config that do not reach the modelled parameters (they too could be refused); the mainnet preset of Lighthouse (external constants). Except in C65 and C91 theorems quantify over every chain spec |
| RISC Zero prover and receipts, on-chain verifier | | outside the repository |

## Not modelled

HTTP transport, tracing, the RISC Zero prover and receipt verification, the Solidity
verifier, the memory model under rayon's workers (their steps are atomic in Model/Parallel.v).
Memory exhaustion and stack depth.

## Trusted base

* The kernel of Coq 8.16.1 (`coqc`, rechecked with `coqchk`). No kernel check is switched off, there are no plugins,
  functors, module types, `Admitted`, or axioms of our own.
* `Print Assumptions` at the end of every file in `Props/`: every theorem prints "Closed under the global context".
  The libraries loaded through the arithmetic tactics (`lia` with `zify`) contain the module
  `Coq.ssr.ssrunder.Under_rel`, whose seven sealed components (`Under_rel`, `Under_rel_from_rel`, `Under_relE`,
  `Over_rel`, `over_rel`, `over_rel_done`, `under_rel_done`) a whole-library check lists as axioms of the standard
  library. No theorem here depends on them.
* The transcription of the code in `Model/`, made by reading. The citations are for checking it.
* The externals written out in the model (list above, and the SSZ container encoding in Model/StateFile.v) and the
  hypotheses on externals that are parameters. A hypothesis appears in the statement of every theorem that needs it.
* The specifications in `Spec/`, which fix what the theorems mean.

## Testing the theorems

`seeded/LOG.jsonl` has one line per wrong program: the definition edited in a scratch copy, the edit, the claim it
breaks, and the theorems whose proofs no longer go through.

How to read a line:
* A build stops at the first failure, so what was observed is `first_failed_lemmas`. `theorems_failed` has the
  theorems among those, and the theorems that use a failed lemma, directly or through others. The uses are found in
  the text of the sources by name, so the list can have a theorem too many where two files share a name.
* Until late in the work `theorems_failed` had every theorem that came after the failed lemma in the build, used or
  not. The lines were corrected by removing the theorems that do not use it (about 21500 entries in 530 lines).
  Two wrong programs (`bj31`, `nx08`) turned out to have broken only examples of the claim they were made for; C85_host_block,
  C65_seed and C65_recorded_mix were added for them. Lines before the correction may miss theorems added later.
* A proof that no longer goes through is evidence that the theorem notices the edit. It is no proof that its
  statement is false of the edited program.
* Lines with no failed theorem are survivors; their note says why they are harmless, or which theorem was added.
