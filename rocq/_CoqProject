-Q theories Verif
theories/Model/Base.v
theories/Model/Types.v
theories/Model/ConsensusState.v
theories/Model/Multiproof.v
theories/Model/Builder.v
theories/Model/Gindices.v
theories/Model/Committee.v
theories/Model/TreeHash.v
theories/Model/Verify.v
theories/Model/GuestReader.v
theories/Model/Guest.v
theories/Proof/BaseLemmas.v
theories/Spec/FFG.v
theories/Proof/ConsensusStateP.v
theories/Proof/AbiP.v
theories/Props/ConsensusProps.v
theories/Spec/Merkle.v
theories/Spec/MultiproofSpec.v
theories/Proof/MerkleP.v
theories/Proof/MultiproofP.v
theories/Proof/BuilderP.v
theories/Proof/ForgeryP.v
theories/Proof/ForgedP.v
theories/Proof/MultiproofMoreP.v
theories/Props/MultiproofProps.v
theories/Spec/Committees.v
theories/Proof/CommitteeP.v
theories/Props/CommitteeProps.v
theories/Spec/Ssz.v
theories/Spec/VerifySpec.v
theories/Proof/VerifyP.v
theories/Proof/ShareP.v
theories/Proof/VerifyMoreP.v
theories/Spec/Safety.v
theories/Proof/SafetyP.v
theories/Props/VerifyProps.v
theories/Props/SafetyProps.v
theories/Spec/Beacon.v
theories/Spec/GuestSpec.v
theories/Proof/BeaconP.v
theories/Proof/GuestP.v
theories/Props/GuestToy.v
theories/Props/GuestProps.v
theories/Spec/Registry.v
theories/Spec/Pipeline.v
theories/Spec/CliSpec.v
theories/Spec/HostInputSpec.v
theories/Spec/ExitQueue.v
theories/Proof/PatchP.v
theories/Proof/ExitQueueP.v
theories/Proof/EndToEndP.v
theories/Props/RegistryProps.v
theories/Props/ExitProps.v
theories/Props/EndToEndProps.v
theories/Model/HostChain.v
theories/Model/HostStore.v
theories/Model/Cli.v
theories/Model/CliRun.v
theories/Model/HostInput.v
theories/Spec/HostSpec.v
theories/Spec/StoreSpec.v
theories/Proof/HostChainP.v
theories/Proof/HostStoreP.v
theories/Proof/HostInputP.v
theories/Proof/HostGuestP.v
theories/Proof/ReplayP.v
theories/Proof/PreflightP.v
theories/Proof/PipelineP.v
theories/Props/HostToy.v
theories/Props/HostInputProps.v
theories/Props/ReplayProps.v
theories/Props/PipelineProps.v
theories/Props/CliRunProps.v
theories/Props/HostChainProps.v
theories/Props/HostStoreProps.v
theories/Props/CliProps.v
theories/Model/AssertReader.v
theories/Model/AssertStream.v
theories/Model/InputCodec.v
theories/Model/StateFile.v
theories/Spec/StateFileSpec.v
theories/Spec/InputCodecSpec.v
theories/Spec/InputFormat.v
theories/Proof/AssertReaderP.v
theories/Proof/AssertStreamP.v
theories/Proof/InputCodecP.v
theories/Proof/InputFormatP.v
theories/Proof/StateFileP.v
theories/Props/AssertReaderProps.v
theories/Props/AssertStreamProps.v
theories/Props/AssertSpecProps.v
theories/Props/InputCodecProps.v
theories/Props/StateFileProps.v
theories/Spec/ClientSpec.v
theories/Proof/ClientP.v
theories/Props/ClientProps.v
theories/Model/Networks.v
theories/Spec/NetworkSpec.v
theories/Props/NetworkProps.v
theories/Model/GenGindices.v
theories/Props/GenGindicesProps.v
theories/Model/BeaconClient.v
theories/Spec/BeaconClientSpec.v
theories/Props/BeaconClientProps.v
theories/Model/Shuffle.v
theories/Spec/ShuffleSpec.v
theories/Proof/ShuffleP.v
theories/Props/ShuffleProps.v
theories/Spec/Meaning.v
theories/Props/MeaningProps.v
theories/Spec/Honest.v
theories/Spec/Moving.v
theories/Proof/InputWfP.v
theories/Proof/InputSizeP.v
theories/Props/HonestProps.v
theories/Props/MovingProps.v
theories/Spec/NetworkRun.v
theories/Props/NetworkRunProps.v
theories/Spec/Skipped.v
theories/Proof/SkippedP.v
theories/Props/SkippedProps.v
theories/Spec/Accountability.v
theories/Props/AccountabilityProps.v
theories/Spec/Drift.v
theories/Spec/Forged.v
theories/Props/DriftProps.v
theories/Props/ForgedProps.v
theories/Model/Parallel.v
theories/Spec/ParallelSpec.v
theories/Proof/ParallelP.v
theories/Props/ParallelProps.v
theories/Model/Shared.v
theories/Spec/SharedSpec.v
theories/Proof/SharedP.v
theories/Props/SharedProps.v
theories/Model/ChangingNode.v
theories/Spec/ChangingSpec.v
theories/Proof/ChangingNodeP.v
theories/Props/ChangingNodeProps.v
theories/Spec/ReproSpec.v
theories/Spec/ShareSpec.v
theories/Proof/ReproP.v
theories/Props/ReproProps.v
theories/Spec/VotesSpec.v
theories/Proof/VotesP.v
theories/Props/VotesProps.v
theories/Model/StateJson.v
theories/Spec/StateJsonSpec.v
theories/Spec/HashTreeRoot.v
theories/Model/StateView.v
theories/Proof/StateJsonP.v
theories/Proof/StateViewP.v
theories/Props/StateJsonProps.v
theories/Props/StateViewProps.v
theories/Spec/BlockSpec.v
theories/Model/BlockJson.v
theories/Spec/JsonRun.v
theories/Proof/BlockJsonP.v
theories/Props/BlockJsonProps.v
theories/Props/JsonToy.v
theories/Props/JsonNodeToy.v
theories/Props/JsonRunProps.v
theories/Model/StackUse.v
theories/Spec/StackSpec.v
theories/Proof/StackP.v
theories/Props/StackProps.v
theories/Model/DataDir.v
theories/Spec/DataDirSpec.v
theories/Proof/DataDirP.v
theories/Props/DataDirProps.v
theories/Spec/PlatformSpec.v
theories/Proof/PlatformP.v
theories/Props/PlatformProps.v
theories/Model/Command.v
theories/Spec/CommandSpec.v
theories/Props/CommandProps.v
theories/Spec/ForkSchedule.v
theories/Props/ForkScheduleProps.v
theories/Spec/Allowance.v
theories/Props/AllowanceProps.v
theories/Props/ShareProps.v
theories/Model/JsonText.v
theories/Spec/JsonSyntax.v
theories/Proof/JsonTextP.v
theories/Proof/JsonPrintP.v
theories/Props/JsonTextProps.v
theories/Model/ConfigText.v
theories/Model/ConfigYaml.v
theories/Model/Args.v
theories/Spec/FlatYaml.v
theories/Spec/CommandLine.v
theories/Proof/FlatYamlP.v
theories/Proof/ArgsP.v
theories/Props/ConfigProps.v
theories/Props/ArgsProps.v
theories/Model/GenText.v
theories/Spec/GenSource.v
theories/Proof/GenTextP.v
theories/Props/GenTextProps.v
theories/Model/RateLimit.v
theories/Props/RateLimitProps.v
theories/Model/SyncLog.v
theories/Spec/SyncReader.v
theories/Props/SyncLogProps.v
theories/Props/PinnedProps.v
theories/Props/SessionProps.v
theories/Props/AskedProps.v
theories/Props/WordsProps.v
