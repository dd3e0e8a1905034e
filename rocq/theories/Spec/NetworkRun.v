(** C72: long runs of the command line tool on mainnet and Sepolia. *)
From Coq Require Import List NArith Bool.
From Coq.Init Require Import Byte.
From Verif.Model Require Import Base Types ConsensusState Verify GuestReader HostChain HostStore HostInput InputCodec CliRun Networks.
From Verif.Spec Require Import FFG Merkle Ssz Beacon GuestSpec VerifySpec HostSpec Pipeline HostInputSpec InputCodecSpec NetworkSpec ShuffleSpec Meaning Honest Moving.
Import ListNotations.
Open Scope N_scope.

(** The node [nd] serves an honest chain of network [n], described in the terms of the consensus
    specification (Spec/Meaning.v, Spec/Honest.v, Spec/Moving.v), on which finality goes from [trusted],
    in state [s], to the state [t], whose finalized block is at [slot]. *)
Record network_step (n : Network) (X : Externals) (C : Codec) (pk_deserialize : bytes -> option PublicKey) (nd : Node)
       (trusted : Checkpoint) (s t : ConsensusState) (slot : Slot)
       (e : Epoch) (us : list ConsensusState) (ls : list Link) (bs : list Block) (st sta : HState) (h : Header) : Prop := {
  ns_next : next_finality (network_spec n) (nd_chain nd) trusted e s us t ls;
  ns_window : vote_window (network_spec n) (nd_chain nd) ls bs;
  ns_search : e <= epoch trusted + N.of_nat (nd_fuel nd) /\ (length us < nd_fuel nd)%nat /\ (e + 1 + N.of_nat (nd_fuel nd)) * 32 < 2 ^ 64;
  ns_votes : Forall (fun l => honest_votes n X pk_deserialize (nd_states nd) trusted st l (votes_for l (included bs)) /\
                              trusted_support n X (nd_states nd) st l (votes_for l (included bs))) ls;
  ns_header : nd_headers nd (root (finalized t)) = Ok (Some h) /\ mroot (sha256 X) (header_tree (sha256 X) h) = root (finalized t) /\ hd_slot h = slot;
  ns_trusted : checkpoint_state X (network_spec n) (nd_states nd) trusted = Ok st /\ hs_supported st = true /\
               nd_blocks nd (hd_slot (hs_header st)) = Ok (Some (boundary_block X st));
  ns_data : sound_data X (network_spec n) pk_deserialize (nd_headers nd) trusted st [root (finalized t)];
  ns_active : nd_states nd (32 * epoch trusted) = Ok sta /\ keys_decode pk_deserialize (st_validators (hs_state sta)) (epoch trusted);
  ns_moving : moving_chain n (nd_states nd) trusted st (chain_votes ls bs);
  ns_typed : typed_answers C (network_spec n) pk_deserialize (nd_states nd) (chain_votes ls bs) /\
             wf_checkpoint (current_justified s) /\ wf_checkpoint trusted;
  ns_sizes : epoch (current_justified s) < 2 ^ 63 /\ 1 <= epoch trusted < 2 ^ 58 /\
             N.of_nat (length (st_validators (hs_state st))) < 2 ^ 22 /\ all_balances (st_validators (hs_state st)) < 2 ^ 62 /\
             N.of_nat (length (chain_votes ls bs)) < 2 ^ 17 }.
Definition network_node n X C pk_deserialize nd trusted s t slot : Prop :=
  exists e us ls bs st sta h, network_step n X C pk_deserialize nd trusted s t slot e us ls bs st sta h.

(** Successive looks at the node: each shows either that the chain has not finalized anything after
    the trusted epoch, or the next step; the steps are listed. *)
Inductive network_watch n X C pk_deserialize : list Node -> Checkpoint -> list (ConsensusState * ConsensusState * Slot) -> Prop :=
| nw_end : forall trusted, network_watch n X C pk_deserialize [] trusted []
| nw_wait : forall nd ns trusted fin steps, nd_finalized nd = Ok fin -> fin <= epoch trusted -> epoch trusted < 2 ^ 64 - 1 ->
    network_watch n X C pk_deserialize ns trusted steps ->
    network_watch n X C pk_deserialize (nd :: ns) trusted steps
| nw_step : forall nd ns trusted fin s t slot steps, nd_finalized nd = Ok fin -> epoch trusted < fin ->
    network_node n X C pk_deserialize nd trusted s t slot ->
    network_watch n X C pk_deserialize ns (finalized t) steps ->
    network_watch n X C pk_deserialize (nd :: ns) trusted ((s, t, slot) :: steps).
(** The same with a step at each look. *)
Inductive network_follow n X C pk_deserialize : list Node -> ConsensusState -> list ConsensusState -> Prop :=
| nf_end : forall st, network_follow n X C pk_deserialize [] st []
| nf_step : forall nd ns st s t slot ts,
    network_node n X C pk_deserialize nd (finalized st) s t slot -> FFG.wf_state s -> FFG.wf_state t ->
    network_follow n X C pk_deserialize ns t ts ->
    network_follow n X C pk_deserialize (nd :: ns) st (t :: ts).
