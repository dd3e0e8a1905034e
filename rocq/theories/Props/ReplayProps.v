(** C55, C56: the guest repeats the host's preflight run; verification looks at nothing of a validator
    but its key, balance and slashing status. *)
From Coq Require Import List Arith ZArith NArith Bool Lia Sorted.
From Coq.Init Require Import Byte.
From Verif.Model Require Import Base Types ConsensusState Multiproof Verify GuestReader Guest HostChain HostStore HostInput.
From Verif.Spec Require FFG.
From Verif.Spec Require Import Merkle Ssz Beacon GuestSpec Committees VerifySpec HostInputSpec.
From Verif.Proof Require Import BaseLemmas VerifyP VerifyMoreP GuestP EndToEndP HostInputP HostGuestP ReplayP PreflightP.
From Verif.Props Require Import VerifyProps GuestToy HostToy HostInputProps.
Import ListNotations.
Open Scope N_scope.
Notation length := List.length.

(** ** C56 *)
(** Two lists of validators that agree on indices, keys, effective balances and slashing status. *)
Definition same_voters : list (ValidatorIndex * ValidatorInfo) -> list (ValidatorIndex * ValidatorInfo) -> Prop :=
  Forall2 (fun a b => fst a = fst b /\ pubkey (snd a) = pubkey (snd b) /\
                      effective_balance (snd a) = effective_balance (snd b) /\ slashed (snd a) = slashed (snd b)).
Lemma same_voters_map l l' : same_voters l l' -> map on_snd l = map on_snd l'.
Proof.
  induction 1 as [|[i a] [j b] l l' (H1 & H2 & H3 & H4) _ IH]; [reflexivity|]. cbn [map]. rewrite IH. f_equal.
  unfold on_snd, voter. cbn [fst snd] in *. congruence.
Qed.
(** Two data sources with the same chain data, attestations and voters at the target epochs lead to
    the same outcome, whatever they say about eligibility, activation and exit epochs. *)
Theorem C56_only_voters_matter : forall X cfg R1 R2,
  sane_spec X (rd_chain_spec R1) ->
  rd_chain_spec R1 = rd_chain_spec R2 -> rd_genesis_validators_root R1 = rd_genesis_validators_root R2 ->
  rd_consensus_state R1 = rd_consensus_state R2 -> rd_attestations R1 = rd_attestations R2 ->
  (forall r, rd_slot_for_block R1 r = rd_slot_for_block R2 r) ->
  (forall atts e, rd_attestations R1 = Ok atts -> In e (target_epochs atts) ->
     rd_fork R1 e = rd_fork R2 e /\
     rd_randao_mix R1 e (seed_epoch_index (rd_chain_spec R1) e) = rd_randao_mix R2 e (seed_epoch_index (rd_chain_spec R1) e) /\
     match rd_active_validators R1 e, rd_active_validators R2 e with
     | Ok l1, Ok l2 => same_voters l1 l2
     | Err a, Err b => a = b
     | Panic, Panic => True
     | _, _ => False
     end) ->
  verify X cfg R1 = verify X cfg R2.
Proof.
  intros X cfg R1 R2 Sane Hcs Hg Hst Ha Hs H. rewrite <- (verify_voters X cfg R1), <- (verify_voters X cfg R2).
  apply verify_replay; auto.
  - intros atts a E Hi. destruct (H atts (epoch (ad_target (att_data a))) E) as (H1 & H2 & H3).
    { unfold target_epochs. now apply (in_map (fun a => epoch (ad_target (att_data a)))). }
    constructor; [exact H1| |exact H2].
    change (map_ok (map on_snd) (rd_active_validators R1 (epoch (ad_target (att_data a)))) = map_ok (map on_snd) (rd_active_validators R2 (epoch (ad_target (att_data a))))).
    destruct (rd_active_validators R1 _), (rd_active_validators R2 _); try contradiction; cbn [map_ok]; try congruence.
    now rewrite (same_voters_map _ _ H3).
  - intros. apply Hs.
Qed.
(** A source that knows nothing of the validators' life cycles, and one that does. *)
Definition r_R : Reader :=
  mkReader toy_cs (Ok toy_gvr) (fun _ => Ok toy_fork)
    (fun _ => Ok (map (fun v => (fst v, mkValidatorInfo (pubkey (snd v)) (effective_balance (snd v)) (slashed (snd v)) 3 4 5)) toy_av))
    (fun e i => if i =? (e + 65534) mod 65536 then Ok (Some (toy_root i)) else Err (RE_Other 1))
    (Ok toy_atts) (Ok toy_state) (fun r => if bytes_eqb r (toy_root 12) then Ok 24 else Err (RE_Other 2)).
Example C56_nonvacuous : verify toy_X DEFAULT_CONFIG r_R = Ok (mkCS (mkCheckpoint 13 (toy_root 13)) (mkCheckpoint 12 (toy_root 12)), 24).
Proof.
  rewrite <- toy_accepted. symmetry. apply C56_only_voters_matter; try reflexivity; [exact toy_sane|].
  intros atts e _ _. split; [reflexivity|]. split; [reflexivity|]. cbn [toy_R r_R rd_active_validators]. unfold same_voters.
  repeat constructor.
Qed.
(** The balances do matter. *)
Example C56_balances_matter :
  verify toy_X DEFAULT_CONFIG
    (mkReader toy_cs (Ok toy_gvr) (fun _ => Ok toy_fork)
      (fun _ => Ok (map (fun v => (fst v, mkValidatorInfo (pubkey (snd v)) (if fst v =? 12 then 2048 else 32) (slashed (snd v)) 3 4 5)) toy_av))
      (rd_randao_mix r_R)
      (Ok [toy_att 26 (mkLink (source toy_l1) (mkCheckpoint 13 (toy_root 13))) [false; true; true; false] [5; 6];
           toy_att 27 (mkLink (source toy_l1) (mkCheckpoint 13 (toy_root 13))) [true; true; true; true] [0; 1; 2; 3]])
      (Ok toy_state) (rd_slot_for_block r_R)) = Err (ThresholdNotMet 192 1931).
Proof. vm_compute. reflexivity. Qed.

(** ** C55 *)
Lemma entry_of_verify X decode cs cfg frame gi r post slot : decode frame = Some gi -> into_reader X cs gi = Ok r ->
  verify X cfg (guest_reader r) = Ok (post, slot) ->
  entry X decode cs cfg frame = Ok (journal_encode (gi_consensus_state gi) post slot).
Proof.
  intros Hd Hr V. unfold entry. rewrite Hd. cbn [expect bind]. rewrite Hr. cbn [unwrap bind].
  apply into_reader_ok in Hr as (sr & si & vals & _ & _ & _ & _ & _ & _ & _ & _ & _ & _ & _ & _ & _ & Er & _).
  assert (C : rd_consensus_state (guest_reader r) = Ok (gi_consensus_state gi)). { cbn [guest_reader rd_consensus_state]. now rewrite Er. }
  rewrite C. cbn [unwrap bind]. rewrite V. reflexivity.
Qed.
(** If the host has prepared an input, and the guest's checks of this input pass, then the guest's
    verification, possibly on another platform, repeats the host's preflight run, and the guest commits
    exactly the transition that the host has predicted. Conditions: the states at the target epochs
    agree with the trusted one on the voters of these epochs, and the registry is small enough for the
    platforms. *)
Theorem C55_guest_repeats_preflight :
  forall X bits cs pk_deserialize states headers blocks collect cfg finalized_epoch gi pre post slot decode frame st,
  (forall c cst atts, collect c = Ok (cst, atts) -> finalized cst = c) ->
  prepare_input X cs pk_deserialize states headers blocks collect cfg finalized_epoch = Ok (gi, pre, post, slot) ->
  checkpoint_state X cs states (finalized pre) = Ok st ->
  sound_data X cs pk_deserialize headers (finalized pre) st [root (finalized post)] ->
  steady_chain cs states (finalized pre) st (gi_attestations gi) ->
  (forall e, In e (target_epochs (gi_attestations gi)) -> FFG.u64 e) ->
  epoch (current_justified pre) + 1 + max_seed_lookahead cs < 2 ^ 64 -> 1 <= epoch (finalized pre) ->
  far_future_epoch cs = 2 ^ 64 - 1 -> sane_spec X cs -> sane_spec (on_platform X bits) cs -> shuffle_permutes X ->
  registry_fits X cs (st_validators (hs_state st)) (target_epochs (gi_attestations gi)) ->
  registry_fits (on_platform X bits) cs (st_validators (hs_state st)) (target_epochs (gi_attestations gi)) ->
  (* the guest *)
  decode frame = Some gi ->
  (exists r, into_reader (on_platform X bits) cs gi = Ok r) ->
  entry (on_platform X bits) decode cs cfg frame = Ok (journal_encode pre post slot).
Proof.
  intros X bits cs pkd states headers blocks collect cfg fe gi pre post slot decode frame st Hco Hp Ec D Sc Hu Hj Ht Hff S1 S2 Hsh F1 F2 Hd (r & Hr).
  destruct (prepare_input_inv _ _ _ _ _ _ _ _ _ _ _ _ _ Hco Hp) as (P1 & P2 & P3 & P4 & P5).
  pose proof (guest_repeats X bits cs pkd states headers (finalized pre) st pre (gi_attestations gi) post slot gi r cfg
    D S1 S2 Hsh F1 F2 Hff Ht Hj Hu Ec eq_refl Sc P3 P4 Hr) as V.
  rewrite <- P1. eapply entry_of_verify; eauto.
Qed.
Lemma guest_verifies_prediction :
  forall X bits cs pk_deserialize states headers blocks collect cfg finalized_epoch gi pre post slot st,
  (forall c cst atts, collect c = Ok (cst, atts) -> finalized cst = c) ->
  prepare_input X cs pk_deserialize states headers blocks collect cfg finalized_epoch = Ok (gi, pre, post, slot) ->
  checkpoint_state X cs states (finalized pre) = Ok st ->
  sound_data X cs pk_deserialize headers (finalized pre) st [root (finalized post)] ->
  steady_chain cs states (finalized pre) st (gi_attestations gi) ->
  (forall e, In e (target_epochs (gi_attestations gi)) -> FFG.u64 e) ->
  epoch (current_justified pre) + 1 + max_seed_lookahead cs < 2 ^ 64 -> 1 <= epoch (finalized pre) ->
  far_future_epoch cs = 2 ^ 64 - 1 -> sane_spec X cs -> sane_spec (on_platform X bits) cs -> shuffle_permutes X ->
  registry_fits X cs (st_validators (hs_state st)) (target_epochs (gi_attestations gi)) ->
  registry_fits (on_platform X bits) cs (st_validators (hs_state st)) (target_epochs (gi_attestations gi)) ->
  (* no new exits *)
  epoch (finalized pre) + 1 + max_seed_lookahead cs < 2 ^ 64 ->
  balances_fit cs (st_validators (hs_state st)) ->
  (forall e st', In e (target_epochs (gi_attestations gi)) -> states (start_slot cs e) = Ok st' ->
     exit_changes (st_validators (hs_state st')) (st_validators (hs_state st)) []) ->
  exists r, into_reader (on_platform X bits) cs gi = Ok r /\ verify (on_platform X bits) cfg (guest_reader r) = Ok (post, slot).
Proof.
  intros X bits cs pkd states headers blocks collect cfg fe gi pre post slot st Hco Hp Ec D Sc Hu Hj Ht Hff S1 S2 Hsh F1 F2 Hb1 Hb2 Hx.
  destruct (prepare_input_inv _ _ _ _ _ _ _ _ _ _ _ _ _ Hco Hp) as (P1 & P2 & P3 & P4 & P5).
  destruct (to_input_reads X cs pkd states headers (finalized pre) _ _ gi (sd_hash _ _ _ _ _ _ _ D) (sd_keys _ _ _ _ _ _ _ D) (sd_decodes _ _ _ _ _ _ _ D) P4)
    as (st1 & active & cst1 & patches & T1 & _ & T2 & _).
  destruct (C52_host_input_accepted X bits cs pkd states headers (finalized pre) st (host_reader cs pkd states headers pre (gi_attestations gi)) pre active (gi_attestations gi) post gi D S1 Hff Ht Hj Hb1 Hb2 Ec
              eq_refl eq_refl eq_refl T2) as (r & R1 & _); auto.
  - eapply host_keys_match; eauto. intros st' i v v'. apply (sc_keys _ _ _ _ _ Sc).
  - intros e st' He. split; [|now apply Hx]. apply N.lt_le_incl. now apply (preflight_targets _ _ _ _ _ _ P3 eq_refl _ _ eq_refl).
  - exists r. split; [exact R1|].
    exact (guest_repeats X bits cs pkd states headers (finalized pre) st pre (gi_attestations gi) post slot gi r cfg
      D S1 S2 Hsh F1 F2 Hff Ht Hj Hu Ec eq_refl Sc P3 P4 R1).
Qed.
(** When the states at the target epochs show no new exits, the guest's checks pass, so the guest
    certainly commits the predicted transition. *)
Theorem C55_guest_commits_prediction :
  forall X bits cs pk_deserialize states headers blocks collect cfg finalized_epoch gi pre post slot decode frame st,
  (forall c cst atts, collect c = Ok (cst, atts) -> finalized cst = c) ->
  prepare_input X cs pk_deserialize states headers blocks collect cfg finalized_epoch = Ok (gi, pre, post, slot) ->
  checkpoint_state X cs states (finalized pre) = Ok st ->
  sound_data X cs pk_deserialize headers (finalized pre) st [root (finalized post)] ->
  steady_chain cs states (finalized pre) st (gi_attestations gi) ->
  (forall e, In e (target_epochs (gi_attestations gi)) -> FFG.u64 e) ->
  epoch (current_justified pre) + 1 + max_seed_lookahead cs < 2 ^ 64 -> 1 <= epoch (finalized pre) ->
  far_future_epoch cs = 2 ^ 64 - 1 -> sane_spec X cs -> sane_spec (on_platform X bits) cs -> shuffle_permutes X ->
  registry_fits X cs (st_validators (hs_state st)) (target_epochs (gi_attestations gi)) ->
  registry_fits (on_platform X bits) cs (st_validators (hs_state st)) (target_epochs (gi_attestations gi)) ->
  decode frame = Some gi ->
  (* no new exits *)
  epoch (finalized pre) + 1 + max_seed_lookahead cs < 2 ^ 64 ->
  balances_fit cs (st_validators (hs_state st)) ->
  (forall e st', In e (target_epochs (gi_attestations gi)) -> states (start_slot cs e) = Ok st' ->
     exit_changes (st_validators (hs_state st')) (st_validators (hs_state st)) []) ->
  entry (on_platform X bits) decode cs cfg frame = Ok (journal_encode pre post slot).
Proof.
  intros X bits cs pkd states headers blocks collect cfg fe gi pre post slot decode frame st Hco Hp Ec D Sc Hu Hj Ht Hff S1 S2 Hsh F1 F2 Hd Hb1 Hb2 Hx.
  destruct (guest_verifies_prediction X bits cs pkd states headers blocks collect cfg fe gi pre post slot st Hco Hp Ec D Sc Hu Hj Ht Hff S1 S2 Hsh F1 F2 Hb1 Hb2 Hx)
    as (r & R1 & R2).
  destruct (prepare_input_inv _ _ _ _ _ _ _ _ _ _ _ _ _ Hco Hp) as (P1 & _). rewrite <- P1. eapply entry_of_verify; eauto.
Qed.

(** The toy chain of HostToy.v: the host has prepared [g_input], and the state at epoch 13 has a new exit. *)
Definition r_blocks (slot : Slot) : outcome N (option Header) := Ok (if slot =? 18 then Some g_header else None).
Definition r_collect (c : Checkpoint) : outcome HostError (ConsensusState * list Attestation) :=
  if checkpoint_eqb c (finalized g_trusted) then Ok (g_trusted, g_atts) else Err BlockMissing.
Lemma r_preflight vs13 : vs13 = h_vs13 \/ vs13 = g_vs ->
  verify g_X DEFAULT_CONFIG (preflight_reader (finalized g_trusted) (host_reader toy_cs h_deserialize (h_states_of vs13) h_headers g_trusted g_atts)) = Ok (h_post, 24).
Proof. intros [-> | ->]; vm_compute; reflexivity. Qed.
Lemma r_prepare vs13 gi : vs13 = h_vs13 \/ vs13 = g_vs ->
  to_input g_X toy_cs h_deserialize (h_states_of vs13) h_headers (finalized g_trusted)
    (host_reader toy_cs h_deserialize (h_states_of vs13) h_headers g_trusted g_atts) (recorded_reads g_X toy_cs g_atts h_post) = Ok gi ->
  prepare_input g_X toy_cs h_deserialize (h_states_of vs13) h_headers r_blocks r_collect DEFAULT_CONFIG 9
  = Ok (gi, gi_consensus_state gi, h_post, 24).
Proof.
  intros Hv Ei. unfold prepare_input, state_at_epoch_boundary, state_at_epoch.
  change (h_states_of vs13 (start_slot toy_cs 9)) with (@Ok ProviderError _ (h_hstate 18 g_vs)). cbn [bind].
  change (hd_slot (hs_header (h_hstate 18 g_vs)) =? st_slot (hs_state (h_hstate 18 g_vs))) with true. cbn [bind map_err].
  change (r_blocks (hd_slot (hs_header (h_hstate 18 g_vs)))) with (@Ok N _ (Some g_header)). cbn [bind map_err ok_or].
  assert (E : bytes_eqb (hd_state_root g_header) (tree_root g_X (state_tree (sha256 g_X) (hs_state (h_hstate 18 g_vs)))) = true) by (vm_compute; reflexivity).
  rewrite E. cbn [assert_ bind].
  assert (E' : tree_root g_X (header_tree (sha256 g_X) g_header) = root (finalized g_trusted)) by (vm_compute; reflexivity).
  rewrite E'. change (mkCheckpoint 9 (root (finalized g_trusted))) with (finalized g_trusted).
  change (r_collect (finalized g_trusted)) with (@Ok HostError _ (g_trusted, g_atts)). cbn [bind map_err].
  rewrite (r_preflight vs13 Hv). cbn [bind map_err]. rewrite Ei. reflexivity.
Qed.
Example r_prepared : prepare_input g_X toy_cs h_deserialize h_states h_headers r_blocks r_collect DEFAULT_CONFIG 9
  = Ok (g_input, g_trusted, h_post, 24).
Proof. apply (r_prepare h_vs13 g_input); [now left|exact h_input]. Qed.
Lemma r_collect_ok c cst atts : r_collect c = Ok (cst, atts) -> finalized cst = c.
Proof.
  unfold r_collect. destruct (checkpoint_eqb c (finalized g_trusted)) eqn:E; [|discriminate].
  apply checkpoint_eqb_eq in E. intros [= <- <-]. now rewrite E.
Qed.
Lemma r_targets : target_epochs g_atts = [12; 12; 13; 13].
Proof. reflexivity. Qed.
Lemma r_steady vs13 : vs13 = h_vs13 \/ vs13 = g_vs -> steady_chain toy_cs (h_states_of vs13) (finalized g_trusted) (h_hstate 18 g_vs) g_atts.
Proof.
  intros Hvs. constructor.
  - intros s st' E. unfold h_states_of in E. repeat (destruct (s =? _); [injection E as <-; reflexivity|]). discriminate E.
  - intros st' i v v' E Hv Hv'. injection E as <-. cbn [h_hstate hs_state h_state st_validators] in *. congruence.
  - rewrite r_targets. intros e He. cbn [In] in He. repeat destruct He as [He|He]; try contradiction; subst e; vm_compute; split; discriminate.
  - rewrite r_targets. intros e st' He E. cbn [In] in He. repeat destruct He as [He|He]; try contradiction; subst e; injection E as <-; reflexivity.
  - rewrite r_targets. intros e st' i He E. cbn [In] in He. unfold voting_entry.
    repeat destruct He as [He|He]; try contradiction; subst e; injection E as <-; cbn [h_hstate hs_state h_state st_validators]; try reflexivity;
    (destruct Hvs as [-> | ->]; [|reflexivity]); (generalize (N.to_nat i); intros k; do 10 (destruct k as [|k]; [vm_compute; reflexivity|]); destruct k; reflexivity).
Qed.
Lemma r_fits bits : bits = 32 \/ bits = 64 -> registry_fits (on_platform g_X bits) toy_cs g_vs (target_epochs g_atts).
Proof.
  rewrite r_targets. intros Hb. split.
  - destruct Hb as [-> | ->]; vm_compute; reflexivity.
  - intros e He. cbn [In] in He. assert (A : active_count g_vs e = 8).
    { repeat destruct He as [He|He]; try contradiction; subst e; vm_compute; reflexivity. }
    rewrite A. unfold fits_platform. cbn [on_platform usize_bits].
    destruct Hb as [-> | ->]; (split; [vm_compute; reflexivity|]); (split; [vm_compute; reflexivity|]);
      (split; [|split; vm_compute; reflexivity]); [exists (2 ^ 31)|exists (2 ^ 63)]; reflexivity.
Qed.
Example C55_nonvacuous : entry (on_platform g_X 64) (fun _ => Some g_input) toy_cs DEFAULT_CONFIG [] = Ok (journal_encode g_trusted h_post 24).
Proof.
  eapply (C55_guest_repeats_preflight g_X 64 toy_cs h_deserialize h_states h_headers r_blocks r_collect DEFAULT_CONFIG 9 g_input g_trusted h_post 24).
  - exact r_collect_ok.
  - exact r_prepared.
  - apply h_checkpoint.
  - exact h_sound.
  - apply r_steady. now left.
  - change (gi_attestations g_input) with g_atts. rewrite r_targets. intros e He. cbn [In] in He.
    repeat destruct He as [He|He]; try contradiction; subst e; vm_compute; reflexivity.
  - vm_compute. reflexivity.
  - vm_compute. discriminate.
  - reflexivity.
  - exact toy_sane.
  - repeat split; try (vm_compute; congruence). exists (2 ^ 48). reflexivity.
  - exact toy_permutes.
  - apply (r_fits 32). now left.
  - apply (r_fits 64). now right.
  - reflexivity.
  - exists g_reader. rewrite into_reader_platform. exact g_accepted.
Qed.
Lemma r_u64 e : In e (target_epochs g_atts) -> FFG.u64 e.
Proof. rewrite r_targets. intros He. cbn [In] in He. repeat destruct He as [He|He]; try contradiction; subst e; vm_compute; reflexivity. Qed.
(** The chain without exits. *)
Example C55_quiet : exists gi,
  prepare_input g_X toy_cs h_deserialize h_quiet h_headers r_blocks r_collect DEFAULT_CONFIG 9 = Ok (gi, g_trusted, h_post, 24) /\
  entry (on_platform g_X 64) (fun _ => Some gi) toy_cs DEFAULT_CONFIG [] = Ok (journal_encode g_trusted h_post 24).
Proof.
  destruct C52_nonvacuous as (gi & r & E1 & E2 & _). apply (r_prepare g_vs gi) in E1 as E3; [|now right].
  destruct (to_input_reads g_X _ _ _ _ _ _ _ gi g_hash32 g_pk48 h_decodes E1) as (_ & _ & cst & _ & _ & _ & _ & _ & C1 & C2 & C3 & _).
  cbn [h_R_quiet host_reader rd_consensus_state rd_attestations] in C1, C2. injection C1 as C1. injection C2 as C2. rewrite C3, <- C1 in E3.
  exists gi. split; [exact E3|].
  eapply (C55_guest_commits_prediction g_X 64 toy_cs h_deserialize h_quiet h_headers r_blocks r_collect DEFAULT_CONFIG 9 gi g_trusted h_post 24);
    try rewrite <- C2.
  - exact r_collect_ok.
  - exact E3.
  - apply h_checkpoint.
  - exact h_sound.
  - apply r_steady. now right.
  - exact r_u64.
  - vm_compute. reflexivity.
  - vm_compute. discriminate.
  - reflexivity.
  - exact toy_sane.
  - repeat split; try (vm_compute; congruence). exists (2 ^ 48). reflexivity.
  - exact toy_permutes.
  - apply (r_fits 32). now left.
  - apply (r_fits 64). now right.
  - reflexivity.
  - vm_compute. reflexivity.
  - split; [discriminate|split; [discriminate|vm_compute; reflexivity]].
  - rewrite r_targets. intros e st' He E'. cbn [In] in He.
    repeat destruct He as [He|He]; try contradiction; subst e; injection E' as <-; apply exit_same.
Qed.
(** Without the agreement on the voters the guest can fail where the preflight succeeds: in the state
    at epoch 13 the absent validators 5 and 8 have lost their balance, and the guest does not know. *)
Definition r_vs13 : list Validator :=
  map (fun iv => if Nat.eqb (fst iv) 5 || Nat.eqb (fst iv) 8 then
                   let v := snd iv in
                   mkValidator (v_pubkey v) (v_withdrawal_credentials v) 1 (v_slashed v) (v_activation_eligibility_epoch v)
                     (v_activation_epoch v) (v_exit_epoch v) (v_withdrawable_epoch v)
                 else snd iv) (combine (seq 0 10) g_vs).
Definition r_atts : list Attestation :=
  [g_att 24 g_l1 [true; true; true; true] [4; 5; 6; 7]; g_att 25 g_l1 [true; true; true; true] [0; 1; 2; 3];
   g_att 26 g_l2 [false; true; true; false] [5; 6]; g_att 27 g_l2 [true; true; true; true] [0; 1; 2; 3]].
Example C55_changed_balances_refuted :
  verify g_X DEFAULT_CONFIG (preflight_reader (finalized g_trusted) (host_reader toy_cs h_deserialize (h_states_of r_vs13) h_headers g_trusted r_atts)) = Ok (h_post, 24) /\
  verify g_X DEFAULT_CONFIG (preflight_reader (finalized g_trusted) (host_reader toy_cs h_deserialize (h_states_of g_vs) h_headers g_trusted r_atts)) = Err (ThresholdNotMet 192 217) /\
  exit_changes r_vs13 g_vs [].
Proof.
  split; [vm_compute; reflexivity|]. split; [vm_compute; reflexivity|]. split; [constructor|]. intros i. cbn [bm_get].
  generalize (N.to_nat i). intros k. do 10 (destruct k as [|k]; [vm_compute; reflexivity|]). destruct k; reflexivity.
Qed.

Print Assumptions C56_only_voters_matter.
Print Assumptions C55_guest_repeats_preflight.
Print Assumptions C55_guest_commits_prediction.
Print Assumptions C55_nonvacuous.
