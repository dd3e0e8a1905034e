(** C89: the balance behind the votes of a chain, for the chain's own rule and for the tool's. *)
From Coq Require Import List NArith Bool.
From Verif.Model Require Import Base Types GuestReader HostStore HostInput CliRun Networks.
From Verif.Spec Require Import Beacon HostInputSpec Meaning Honest NetworkSpec ReproSpec.
Import ListNotations.
Open Scope N_scope.

(** On network [n] the aggregates [g] are valid votes for the link [l], as [honest_votes] has it; in the
    state at the start of the target epoch the active validators have the balance [T], and those of them
    that vote and are not slashed have [V]. *)
Record valid_votes (n : Network) (X : Externals) (pk_deserialize : bytes -> option PublicKey)
       (states : Slot -> answer HState) (trusted : Checkpoint) (st : HState) (l : Link) (g : list Attestation) (T V : N) : Prop := {
  vv_some : g <> [];
  vv_epoch : electra_epoch n <= epoch (target l) <= epoch trusted + 4;
  vv_state : exists st' mix,
    states (32 * epoch (target l)) = Ok st' /\
    st_genesis_validators_root (hs_state st') = st_genesis_validators_root (hs_state st) /\
    keys_decode pk_deserialize (st_validators (hs_state st')) (epoch (target l)) /\
    nth_error (hs_randao_mixes st') (N.to_nat ((epoch (target l) + 65534) mod 65536)) = Some mix /\
    N.of_nat (length (st_validators (hs_state st'))) < 2 ^ 32 /\
    N.of_nat (length (active_indices (st_validators (hs_state st')) (epoch (target l)))) < 2 ^ 21 /\
    all_balances (st_validators (hs_state st')) < 2 ^ 62 /\
    Forall (vote_valid X n (hs_state st') mix l) g /\
    Forall (includable X (st_validators (hs_state st')) mix) g /\
    T = total_balance (st_validators (hs_state st')) (active_indices (st_validators (hs_state st')) (epoch (target l))) /\
    V = total_balance (st_validators (hs_state st')) (voters X (st_validators (hs_state st')) mix (epoch (target l)) g) }.

(** weigh_justification_and_finalization: two thirds are enough for the chain. *)
Definition enough_for_chain (T V : N) : Prop := 2 * T <= 3 * V.
(** The tool asks for 85 percent (Sepolia: 70). *)
Definition enough_for_tool (n : Network) (T V : N) : Prop := percent n * T <= 100 * V.

(** The node shows the same as [nd] from slot [lo] to the start of epoch [last], and the search for the
    next finality after [e] is carried on that far. *)
Definition shows_window (cs : ChainSpec) (nd : Node) (e : Epoch) (lo : Slot) (last : Epoch) (nd' : Node) : Prop :=
  agree_between nd nd' lo (last * slots_per_epoch cs) /\ last - e <= N.of_nat (nd_fuel nd').
