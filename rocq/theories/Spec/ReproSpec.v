(** What two beacon nodes must agree on for the same input to be built from them. *)
From Coq Require Import List NArith.
From Verif.Model Require Import Base Types ConsensusState Verify HostChain HostInput CliRun.
From Verif.Spec Require Import Beacon.
Import ListNotations.
Open Scope N_scope.

(** The nodes give the same answers about the slots from [lo] to [hi], and the same headers for the roots that a state of these slots calls justified or finalized. Their answers
    about all other slots and roots, and what they call finalized now, may differ. *)
Record agree_between (n n' : Node) (lo hi : Slot) : Prop := {
  ag_states : forall s, lo <= s <= hi -> nd_states n s = nd_states n' s;
  ag_blocks : forall s, lo <= s <= hi -> nd_blocks n s = nd_blocks n' s;
  ag_checkpoints : forall s, lo <= s <= hi -> ch_state (nd_chain n) s = ch_state (nd_chain n') s;
  ag_votes : forall s, lo <= s <= hi -> ch_block (nd_chain n) s = ch_block (nd_chain n') s;
  ag_headers : forall s st, lo <= s <= hi -> ch_state (nd_chain n) s = Ok st ->
    nd_headers n (root (current_justified st)) = nd_headers n' (root (current_justified st)) /\
    nd_headers n (root (finalized st)) = nd_headers n' (root (finalized st)) }.

(** The slots from the block of the checkpoint of epoch [e] (first slot [lo]) to the first slot of epoch
    [last], at which the node shows something later than [e] as finalized. *)
Record window (cs : ChainSpec) (n : Node) (e : Epoch) (lo : Slot) (last : Epoch) : Prop := {
  wi_fits : (last + 1) * slots_per_epoch cs < 2 ^ 64;
  wi_lo : lo <= e * slots_per_epoch cs;
  (* the last block of the states up to the start of [e] is not before [lo], and not after the state *)
  wi_block : forall s st, lo <= s <= e * slots_per_epoch cs -> nd_states n s = Ok st -> lo <= hd_slot (hs_header st) <= s;
  wi_later : e < last;
  wi_finality : exists t, ch_state (nd_chain n) (last * slots_per_epoch cs) = Ok t /\ e < epoch (finalized t);
  (* at the start of an epoch only earlier epochs are justified *)
  wi_justified : forall x st, e < x <= last -> ch_state (nd_chain n) (x * slots_per_epoch cs) = Ok st -> epoch (current_justified st) < x;
  (* the search is carried on at least that far *)
  wi_fuel : last - e <= N.of_nat (nd_fuel n) }.

(** The inputs of a chain, one after the other: [build e] is what is built for the epoch [e]. *)
Inductive inputs_from (build : Epoch -> outcome HIError (GuestReader.GuestInput * ConsensusState * ConsensusState * N)) :
  Epoch -> list Built -> Prop :=
| inputs_end e : inputs_from build e []
| inputs_next e gi pre post slot r : build e = Ok (gi, pre, post, slot) -> inputs_from build (epoch (finalized post)) r ->
    inputs_from build e (mkBuilt e gi pre post slot :: r).
