(** The two networks and their guest programs: chainspec/src/lib.rs, chainspec/configs/*.yaml,
    methods/guest/src/bin/{mainnet,sepolia}.rs and the selection by network in zkasper_cli.rs. *)
From Coq Require Import List NArith Bool.
From Coq.Init Require Import Byte.
From Verif.Model Require Import Base Types ConsensusState Verify GuestReader Guest Cli InputCodec.
Import ListNotations.
Open Scope N_scope.

(** zkasper_cli.rs:136-139 [Network]. *)
Inductive Network := Mainnet | Sepolia.

(** chainspec/configs/mainnet.yaml:28-55: fork epochs and versions. Gloas has no entry and is not
    scheduled; its version is the default of Lighthouse's [Config]. *)
Definition mainnet_fork_epoch (f : ForkName) : option Epoch :=
  match f with
  | BaseFork => Some 0 | Altair => Some 74240 | Bellatrix => Some 144896 | Capella => Some 194048
  | Deneb => Some 269568 | Electra => Some 364032 | Fulu => Some 411392 | Gloas => None
  end.
Definition mainnet_fork_version (f : ForkName) : Version :=
  match f with
  | BaseFork => [x00; x00; x00; x00] | Altair => [x01; x00; x00; x00] | Bellatrix => [x02; x00; x00; x00]
  | Capella => [x03; x00; x00; x00] | Deneb => [x04; x00; x00; x00] | Electra => [x05; x00; x00; x00]
  | Fulu => [x06; x00; x00; x00] | Gloas => [xff; xff; xff; xff]
  end.
(** chainspec/configs/sepolia.yaml:10-45. *)
Definition sepolia_fork_epoch (f : ForkName) : option Epoch :=
  match f with
  | BaseFork => Some 0 | Altair => Some 50 | Bellatrix => Some 100 | Capella => Some 56832
  | Deneb => Some 132608 | Electra => Some 222464 | Fulu => Some 272640 | Gloas => None
  end.
Definition sepolia_fork_version (f : ForkName) : Version :=
  match f with
  | BaseFork => [x90; x00; x00; x69] | Altair => [x90; x00; x00; x70] | Bellatrix => [x90; x00; x00; x71]
  | Capella => [x90; x00; x00; x72] | Deneb => [x90; x00; x00; x73] | Electra => [x90; x00; x00; x74]
  | Fulu => [x90; x00; x00; x75] | Gloas => [xff; xff; xff; xff]
  end.
(** chainspec/src/lib.rs:19-37 [mainnet_spec], [sepolia_spec]. What the files do not set comes from
    Lighthouse's mainnet preset (external): FAR_FUTURE_EPOCH, MIN_SEED_LOOKAHEAD 1,
    MAX_SEED_LOOKAHEAD 4, SHUFFLE_ROUND_COUNT 90, EFFECTIVE_BALANCE_INCREMENT 10^9,
    MIN_ACTIVATION_BALANCE 32 * 10^9, MAX_COMMITTEES_PER_SLOT 64, TARGET_COMMITTEE_SIZE 128,
    DOMAIN_BEACON_ATTESTER 1, SLOTS_PER_EPOCH 32, EPOCHS_PER_HISTORICAL_VECTOR 65536.
    MIN_PER_EPOCH_CHURN_LIMIT_ELECTRA and CHURN_LIMIT_QUOTIENT: mainnet.yaml:145, 81; sepolia.yaml:135, 72.
    Model/ConfigYaml.v reads them from the text of the files. *)
Definition preset (fe : ForkName -> option Epoch) (fv : ForkName -> Version) : ChainSpec :=
  mkChainSpec fe fv (2 ^ 64 - 1) 1 4 90 1000000000 32000000000 128000000000 65536 64 128 1 32 65536.
Definition mainnet_spec : ChainSpec := preset mainnet_fork_epoch mainnet_fork_version.
Definition sepolia_spec : ChainSpec := preset sepolia_fork_epoch sepolia_fork_version.

(** zkasper_cli.rs:182-185. *)
Definition network_spec (n : Network) : ChainSpec :=
  match n with Sepolia => sepolia_spec | Mainnet => mainnet_spec end.
(** zkasper_cli.rs:153-158 [config_for]. *)
Definition config_for (n : Network) : Config :=
  match n with Sepolia => SEPOLIA_CONFIG | Mainnet => DEFAULT_CONFIG end.
(** methods/guest/src/bin/mainnet.rs:21-23. *)
Definition mainnet_guest (X : Externals) (decode : bytes -> option GuestInput) : bytes -> outcome unit bytes :=
  guest_main X decode mainnet_spec DEFAULT_CONFIG.
(** methods/guest/src/bin/sepolia.rs:21-23. *)
Definition sepolia_guest (X : Externals) (decode : bytes -> option GuestInput) : bytes -> outcome unit bytes :=
  guest_main X decode sepolia_spec SEPOLIA_CONFIG.
(** zkasper_cli.rs:480-483: the program executed for a network. *)
Definition guest_for (n : Network) (X : Externals) (decode : bytes -> option GuestInput) : bytes -> outcome unit bytes :=
  match n with Mainnet => mainnet_guest X decode | Sepolia => sepolia_guest X decode end.
