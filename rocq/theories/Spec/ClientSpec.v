(** A client that follows proofs: specification vocabulary. The client is not code of the
    repository; README.md:11 says what it does ("Starting from a trusted consensus state, a client
    verifying these proofs can update its view of the latest finalized checkpoint"). *)
From Coq Require Import List NArith Bool.
From Verif.Model Require Import Base Types ConsensusState Verify GuestReader Guest Cli InputCodec.
From Verif.Spec Require Import FFG VerifySpec Safety.
Import ListNotations.
Open Scope N_scope.

(** A journal has a proof if some standard input makes the guest program commit it (soundness of
    the proof system is assumed here). *)
Definition proven (X : Externals) (C : Codec) (w : N) (cs : ChainSpec) (cfg : Config) (journal : bytes) : Prop :=
  exists stdin, guest_main X (decode_input C w) cs cfg stdin = Ok journal.

(** The client accepts a journal with a proof whose first half decodes to its own state, and moves
    to the state in the second half. *)
Inductive follows (ok : bytes -> Prop) : ConsensusState -> list bytes -> ConsensusState -> Prop :=
| follows_nil : forall s, follows ok s [] s
| follows_step : forall s j t js u,
    ok j -> abi_decode (firstn 128 j) = Ok s -> abi_decode (skipn 128 j) = Ok t ->
    follows ok t js u -> follows ok s (j :: js) u.

(** One accepted proof: the guest input, the data proven in it, and its attestations grouped by link. *)
Record Step := mkStep { sp_input : GuestInput; sp_reader : GuestInputReader; sp_groups : list (Link * list Attestation) }.
(** A link together with the attestations that support it and the proven data they were checked
    against. *)
Record Vote := mkVote { v_link : Link; v_atts : list Attestation; v_data : Reader }.
Definition step_votes (p : Step) : list Vote :=
  map (fun g => mkVote (fst g) (snd g) (guest_reader (sp_reader p))) (sp_groups p).
Definition votes (ps : list Step) : list Vote := flat_map step_votes ps.
Definition links (ps : list Step) : list Link := map v_link (votes ps).
Definition backed (X : Externals) (cfg : Config) (v : Vote) (av P : validators) : Prop :=
  supermajority_link X cfg (v_data v) (v_link v) (v_atts v) av P.

(** Each link starts where the one before it ended, and goes forward. *)
Inductive one_chain : Checkpoint -> list Link -> Checkpoint -> Prop :=
| oc_nil : forall c, one_chain c [] c
| oc_cons : forall c b ls d, epoch c < epoch b -> one_chain b ls d -> one_chain c (mkLink c b :: ls) d.

(** The steps [ps] explain why the client moved: a guest input behind each journal, whose proofs were
    accepted, whose attestations are the votes in their order, each for a link within the configured
    bounds, together an atomic finalization from the old to the new state. *)
Inductive explained (X : Externals) (C : Codec) (w : N) (cs : ChainSpec) (cfg : Config)
  : ConsensusState -> list bytes -> ConsensusState -> list Step -> Prop :=
| explained_nil : forall s, explained X C w cs cfg s [] s []
| explained_step : forall s gi frame r gs slot t js u ps,
    decode_input C w frame = Some gi -> gi_consensus_state gi = s ->
    into_reader X cs gi = Ok r ->
    groups (gi_attestations gi) gs ->
    accepted_chain s (map fst gs) t ->
    Forall (fun g => within_bounds cfg cs (finalized s) (fst g) /\
                     exists av P, supermajority_link X cfg (guest_reader r) (fst g) (snd g) av P) gs ->
    explained X C w cs cfg t js u ps ->
    explained X C w cs cfg s (journal_encode s t slot :: js) u (mkStep gi r gs :: ps).
