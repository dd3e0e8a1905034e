(** C88: what the commands of the tool are run with. *)
From Coq Require Import List NArith Bool.
From Verif.Model Require Import Base Types ConsensusState Verify GuestReader Guest HostChain HostStore HostInput Cli CliRun InputCodec Networks Command.
From Verif.Spec Require Import PlatformSpec.
Import ListNotations.
Open Scope N_scope.

(** A zkVM that runs the program of each network on 32-bit words, as it is. *)
Definition faithful (X0 : Externals) (C : Codec) : Zkvm := fun n stdin =>
  match guest_for n (guest_side X0) (decode_input C 32) stdin with Ok journal => Some journal | _ => None end.
(** The inputs that can be prepared from the node fit the guest: it can read them, they are shorter than
    2^32 bytes and have fewer than 2^21 public keys. *)
Definition inputs_fit (n : Network) (X : Externals) (C : Codec) (pk_deserialize : bytes -> option bytes) (nd : Node) : Prop :=
  forall e gi pre post slot,
    prepare_input X (network_spec n) pk_deserialize (nd_states nd) (nd_headers nd) (nd_blocks nd)
      (collect_from (network_spec n) (nd_chain nd) (nd_fuel nd)) (config_for n) e = Ok (gi, pre, post, slot) ->
    decode_input C 32 (encode_input C gi) = Some gi /\ N.of_nat (length (encode_input C gi)) < 2 ^ 32 /\
    N.of_nat (length (gi_public_keys gi)) < 2 ^ 21.
(** The network's guest program can be run so that it commits the step from [pre] to [post]. *)
Definition provable (n : Network) (X0 : Externals) (C : Codec) (pre post : ConsensusState) : Prop :=
  exists stdin slot, guest_for n (guest_side X0) (decode_input C 32) stdin = Ok (journal_encode pre post slot).
(** Each line of a log starts where the one before ended. *)
Fixpoint log_from (st : ConsensusState) (lines : list SyncLine) : Prop :=
  match lines with
  | [] => True
  | l :: r => sl_from l = st /\ log_from (sl_to l) r
  end.
