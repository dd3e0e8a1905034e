(** C35, C37: the guest as a whole. *)
From Coq Require Import List Arith ZArith NArith Bool Lia Sorted Permutation.
From Coq.Init Require Import Byte.
From Verif.Model Require Import Base Types ConsensusState Multiproof Verify GuestReader Guest.
From Verif.Spec Require Import FFG Merkle MultiproofSpec Ssz Beacon GuestSpec Registry VerifySpec.
From Verif.Proof Require Import BaseLemmas GuestP VerifyP PatchP EndToEndP.
From Verif.Props Require Import VerifyProps GuestToy.
Import ListNotations.
Open Scope N_scope.
Notation length := List.length.

(** *** C35 *)
(** If the trusted root commits to state [s], the active set the guest uses for an epoch within the
    lookahead is that of [s], whatever patches and proofs the prover supplies. *)
Theorem C35_active_set_of_committed_state : forall X cs gi r h s e l,
  committed X gi h s -> into_reader X cs gi = Ok r ->
  let trusted := epoch (finalized (gi_consensus_state gi)) in
  far_future_epoch cs = 2 ^ 64 - 1 -> 1 <= trusted ->
  trusted <= e <= trusted + max_seed_lookahead cs ->
  e <= st_slot s / slots_per_epoch cs + max_seed_lookahead cs ->
  rd_active_validators (guest_reader r) e = Ok l ->
  active_validators_of X (st_validators s) e l.
Proof. intros. eapply reader_active_of; eauto. Qed.
(** The state in the trusted epoch itself. *)
Corollary C35_state_in_trusted_epoch : forall X cs gi r h s e l,
  committed X gi h s -> into_reader X cs gi = Ok r ->
  let trusted := epoch (finalized (gi_consensus_state gi)) in
  far_future_epoch cs = 2 ^ 64 - 1 -> 1 <= trusted -> st_slot s / slots_per_epoch cs = trusted ->
  trusted <= e <= trusted + max_seed_lookahead cs ->
  rd_active_validators (guest_reader r) e = Ok l ->
  active_validators_of X (st_validators s) e l.
Proof.
  intros X cs gi r h s e l C E tr Hff Ht Hs He A. eapply C35_active_set_of_committed_state; eauto. rewrite Hs. apply He.
Qed.
(** Also for a state from before the trusted epoch (skipped slots): two accepted inputs for the same
    consensus state give the same active sets. *)
Theorem C35_prover_independent : forall X cs gi gi' r r' h s e l l',
  committed X gi h s -> committed X gi' h s -> gi_consensus_state gi = gi_consensus_state gi' ->
  into_reader X cs gi = Ok r -> into_reader X cs gi' = Ok r' ->
  let trusted := epoch (finalized (gi_consensus_state gi)) in
  1 <= trusted -> trusted <= e <= trusted + max_seed_lookahead cs ->
  rd_active_validators (guest_reader r) e = Ok l -> rd_active_validators (guest_reader r') e = Ok l' ->
  Forall2 (fun x y => fst x = fst y /\ same_info X (snd x) (snd y)) l l'.
Proof. intros. eapply (reader_active_unique X cs gi gi'); eauto. Qed.

Lemma g_committed : committed g_X g_input g_header g_state.
Proof.
  constructor; [exact g_hash32|exact g_pk48|apply g_wf|apply g_wf|vm_compute; reflexivity|vm_compute; reflexivity|
    exact g_check_block|exact g_check_state|exact g_check_registry|split; repeat constructor].
Qed.
Example C35_nonvacuous : committed g_X g_input g_header g_state /\ into_reader g_X toy_cs g_input = Ok g_reader /\
  far_future_epoch toy_cs = 2 ^ 64 - 1 /\ epoch (finalized (gi_consensus_state g_input)) = 9 /\
  st_slot g_state / slots_per_epoch toy_cs = 9 /\
  exists l, rd_active_validators (guest_reader g_reader) 13 = Ok l /\ map fst l = [0; 1; 2; 3; 5; 6; 7; 8].
Proof.
  split; [exact g_committed|]. split; [exact g_accepted|]. split; [reflexivity|]. split; [reflexivity|]. split; [reflexivity|].
  eexists. split; [reflexivity|]. vm_compute. reflexivity.
Qed.
(** Beyond the lookahead patches do count: at epoch 13 + ... the patched validator has left. *)
Example C35_beyond_lookahead : exists l,
  rd_active_validators (guest_reader (mkGuestReader (gr_spec g_reader) (gr_genesis_validators_root g_reader)
     (gr_validators g_reader) [(16, mkStatePatch [] [(5, 16)])] g_trusted [] [])) 16 = Ok l /\
  map fst l = [0; 1; 2; 3; 6; 7; 8; 9].
Proof. eexists. split; [reflexivity|]. vm_compute. reflexivity. Qed.

(** *** C37 *)
(** If the guest commits a journal it is the encoding of (pre, post, slot), pre being the input's
    state; the attestations are groups for the links of a chain from pre to post; and if pre's
    finalized root commits to a state, every link is signed by a supermajority of the validators
    which that state says are active at the link's target. *)
Theorem C37_guest_soundness : forall X decode cs cfg frame journal,
  entry X decode cs cfg frame = Ok journal ->
  exists gi post slot,
    decode frame = Some gi /\ journal = journal_encode (gi_consensus_state gi) post slot /\
    forall h s,
      committed X gi h s ->
      far_future_epoch cs = 2 ^ 64 - 1 -> epoch_lookahead_limit cfg <= max_seed_lookahead cs ->
      1 <= epoch (finalized (gi_consensus_state gi)) ->
      st_slot s / slots_per_epoch cs = epoch (finalized (gi_consensus_state gi)) ->
      exists gs,
        groups (gi_attestations gi) gs /\
        accepted_chain (gi_consensus_state gi) (map fst gs) post /\
        Forall (fun g => within_bounds cfg cs (finalized (gi_consensus_state gi)) (fst g) /\
                         signed_by_state X cfg cs s (fst g) (snd g)) gs.
Proof.
  intros X decode cs cfg frame j E. apply entry_ok in E as (gi & r & post & slot & E1 & E2 & E3 & E4).
  exists gi, post, slot. split; auto. split; auto. intros h s C Hff Hl Ht Hs. eapply guest_links; eauto.
Qed.
(** The slot in the journal is that of the block the new finalized root commits to. *)
Theorem C37_slot : forall X decode cs cfg frame journal,
  entry X decode cs cfg frame = Ok journal ->
  exists gi post slot,
    decode frame = Some gi /\ journal = journal_encode (gi_consensus_state gi) post slot /\
    forall h, hash32 (sha256 X) -> wf_header h ->
      (forall mp, In mp (gi_block_slot_proofs gi) -> checkable (sha256 X) (header_tree (sha256 X) h) mp) ->
      root (finalized post) = mroot (sha256 X) (header_tree (sha256 X) h) -> slot = hd_slot h.
Proof.
  intros X decode cs cfg frame j E. apply entry_ok in E as (gi & r & post & slot & E1 & E2 & E3 & E4).
  exists gi, post, slot. split; auto. split; auto. intros h Hh Wh C R.
  apply verify_sound in E3 as (st0 & atts & gs & _ & _ & _ & _ & _ & G). rewrite R in G.
  apply into_reader_ok in E2 as (sr & si & vals & _ & _ & _ & _ & _ & _ & _ & _ & _ & F & _).
  cbn [guest_reader rd_slot_for_block] in G. apply (proj1 (ok_or_ok _ _ _)) in G. eapply block_slot_ok; eauto.
Qed.
(** Otherwise the guest aborts: there is no third outcome. *)
Theorem C37_commits_or_aborts : forall X decode cs cfg frame,
  entry X decode cs cfg frame = Panic \/ exists journal, entry X decode cs cfg frame = Ok journal.
Proof.
  intros. unfold entry. destruct (decode frame) as [gi|]; cbn [expect bind]; [|auto].
  destruct (into_reader X cs gi) as [r| |]; cbn [unwrap bind]; auto.
  destruct (rd_consensus_state (guest_reader r)); cbn [unwrap bind]; auto.
  destruct (verify X cfg (guest_reader r)) as [[post slot]| |]; cbn [unwrap bind]; eauto.
Qed.

Example C37_nonvacuous : exists journal post,
  entry g_X (fun _ => Some g_input) toy_cs DEFAULT_CONFIG [] = Ok journal /\
  committed g_X g_input g_header g_state /\ epoch_lookahead_limit DEFAULT_CONFIG <= max_seed_lookahead toy_cs /\
  post = mkCS (mkCheckpoint 13 (toy_root 13)) (mkCheckpoint 12 g_root12) /\
  journal = journal_encode g_trusted post 24.
Proof.
  do 2 eexists. split; [|split; [exact g_committed|split; [vm_compute; congruence|split; [reflexivity|reflexivity]]]].
  unfold entry. cbn [expect bind]. rewrite g_accepted. cbn [unwrap bind].
  assert (verify g_X DEFAULT_CONFIG (guest_reader g_reader) =
          Ok (mkCS (mkCheckpoint 13 (toy_root 13)) (mkCheckpoint 12 g_root12), 24)) as -> by (vm_compute; reflexivity).
  cbn [unwrap bind]. cbn [guest_reader rd_consensus_state].
  assert (gr_consensus_state g_reader = g_trusted) as -> by (vm_compute; reflexivity). reflexivity.
Qed.

Print Assumptions C35_active_set_of_committed_state.
Print Assumptions C35_state_in_trusted_epoch.
Print Assumptions C35_prover_independent.
Print Assumptions C37_guest_soundness.
Print Assumptions C37_slot.
Print Assumptions C37_commits_or_aborts.
