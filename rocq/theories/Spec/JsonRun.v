(** C85: runs of the command line tool against a node that answers in JSON. *)
From Coq Require Import List NArith Bool.
From Coq.Init Require Import Byte.
From Verif.Model Require Import Base Types ConsensusState Verify GuestReader HostChain HostStore HostInput InputCodec CliRun BeaconClient Networks StateFile.
From Verif.Spec Require Import FFG Merkle Ssz Beacon GuestSpec VerifySpec HostSpec Pipeline HostInputSpec InputCodecSpec NetworkSpec Meaning Honest Moving HashTreeRoot.
From Verif.Model Require Import StateJson StateView BlockJson.
Import ListNotations.
Open Scope N_scope.

(** As [network_step] (Spec/NetworkRun.v), for a node behind [endpoint] whose answers are [server]. Nothing
    is assumed about the form of what the node answers: that states and headers are well-formed, numbers in
    range, roots of 32 bytes and attestations values of Lighthouse's type comes from how JSON is read. The
    block of the trusted checkpoint need only have the right root. *)
Record json_step (n : Network) (X : Externals) (C : Codec) (pk_deserialize : bytes -> option PublicKey)
       (endpoint : Url) (server : Url -> Reply json) (fuel : nat)
       (trusted : Checkpoint) (s t : ConsensusState) (slot : Slot)
       (e : Epoch) (us : list ConsensusState) (ls : list Link) (bs : list Block) (st sta : HState) (h b : Header) : Prop := {
  js_next : next_finality (network_spec n) (json_chain C endpoint server) trusted e s us t ls;
  js_window : vote_window (network_spec n) (json_chain C endpoint server) ls bs;
  js_search : e <= epoch trusted + N.of_nat fuel /\ (length us < fuel)%nat /\ (e + 1 + N.of_nat fuel) * 32 < 2 ^ 64;
  js_votes : let states := nd_states (json_node (sha256 X) C endpoint server fuel) in
             Forall (fun l => honest_votes n X pk_deserialize states trusted st l (votes_for l (included bs)) /\
                              trusted_support n X states st l (votes_for l (included bs))) ls;
  js_header : nd_headers (json_node (sha256 X) C endpoint server fuel) (root (finalized t)) = Ok (Some h) /\
              mroot (sha256 X) (header_tree (sha256 X) h) = root (finalized t) /\ hd_slot h = slot;
  js_trusted : let nd := json_node (sha256 X) C endpoint server fuel in
               checkpoint_state X (network_spec n) (nd_states nd) trusted = Ok st /\ hs_supported st = true /\
               nd_blocks nd (hd_slot (hs_header st)) = Ok (Some b) /\ mroot (sha256 X) (header_tree (sha256 X) b) = root trusted /\
               no_collision (sha256 X) (header_tree (sha256 X) b) (header_tree (sha256 X) (boundary_block X st));
  js_externals : hash32 (sha256 X) /\ pk48 X /\ decodes X pk_deserialize /\ (forall b k, pk_deserialize b = Some k -> wf_key C k);
  js_keys : keys_decode pk_deserialize (st_validators (hs_state st)) (epoch trusted);
  js_fork : st_fork (hs_state st) = fork_at_epoch (network_spec n) (st_slot (hs_state st) / 32);
  js_active : nd_states (json_node (sha256 X) C endpoint server fuel) (32 * epoch trusted) = Ok sta /\
              keys_decode pk_deserialize (st_validators (hs_state sta)) (epoch trusted);
  js_moving : moving_chain n (nd_states (json_node (sha256 X) C endpoint server fuel)) trusted st (chain_votes ls bs);
  js_sizes : epoch (current_justified s) < 2 ^ 63 /\ 1 <= epoch trusted < 2 ^ 58 /\
             N.of_nat (length (st_validators (hs_state st))) < 2 ^ 22 /\ all_balances (st_validators (hs_state st)) < 2 ^ 62 /\
             N.of_nat (length (chain_votes ls bs)) < 2 ^ 17 }.
Definition json_next n X C pk_deserialize endpoint server fuel trusted s t slot : Prop :=
  exists e us ls bs st sta h b, json_step n X C pk_deserialize endpoint server fuel trusted s t slot e us ls bs st sta h b.

(** Successive looks at the node, as in Spec/NetworkRun.v: between two looks its answers may change. *)
Inductive json_watch n X C pk_deserialize endpoint fuel : list (Url -> Reply json) -> Checkpoint -> list (ConsensusState * ConsensusState * Slot) -> Prop :=
| jw_end : forall trusted, json_watch n X C pk_deserialize endpoint fuel [] trusted []
| jw_wait : forall server more trusted f steps, ask_finality endpoint server Head = Ok f -> epoch (f_finalized f) <= epoch trusted -> epoch trusted < 2 ^ 64 - 1 ->
    json_watch n X C pk_deserialize endpoint fuel more trusted steps ->
    json_watch n X C pk_deserialize endpoint fuel (server :: more) trusted steps
| jw_step : forall server more trusted f s t slot steps, ask_finality endpoint server Head = Ok f -> epoch trusted < epoch (f_finalized f) ->
    json_next n X C pk_deserialize endpoint server fuel trusted s t slot ->
    json_watch n X C pk_deserialize endpoint fuel more (finalized t) steps ->
    json_watch n X C pk_deserialize endpoint fuel (server :: more) trusted ((s, t, slot) :: steps).
(** The same with a step at each look. *)
Inductive json_follow n X C pk_deserialize endpoint fuel : list (Url -> Reply json) -> ConsensusState -> list ConsensusState -> Prop :=
| jf_end : forall st, json_follow n X C pk_deserialize endpoint fuel [] st []
| jf_step : forall server more st s t slot ts,
    json_next n X C pk_deserialize endpoint server fuel (finalized st) s t slot ->
    json_follow n X C pk_deserialize endpoint fuel more t ts ->
    json_follow n X C pk_deserialize endpoint fuel (server :: more) st (t :: ts).
