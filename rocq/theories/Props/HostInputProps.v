(** C31, C52, C53: the guest inputs that the host builds. *)
From Coq Require Import List Arith ZArith NArith Bool Lia Sorted.
From Coq.Init Require Import Byte.
From Verif.Model Require Import Base Types ConsensusState Multiproof Verify GuestReader Guest HostChain HostStore HostInput.
From Verif.Spec Require Import Merkle MultiproofSpec Ssz Beacon GuestSpec Registry VerifySpec HostInputSpec.
From Verif.Proof Require Import BaseLemmas VerifyP GuestP PatchP ExitQueueP EndToEndP HostInputP HostGuestP.
From Verif.Props Require Import VerifyProps GuestToy HostToy.
Import ListNotations.
Open Scope N_scope.
Notation length := List.length.

(** For every registry, every epoch and every list of already decoded validators, the host can build
    the registry proof; the proof verifies against the registry's root, and the guest reads from it
    exactly the validators that have not exited, with the values of the registry. *)
Theorem C31_registry_proof_accepted : forall X pk_deserialize cur vs active,
  hash32 (sha256 X) -> pk48 X -> decodes X pk_deserialize -> wf_registry vs ->
  keys_decode pk_deserialize vs cur -> keys_match pk_deserialize vs active ->
  exists mp keys out,
    validators_multiproof X pk_deserialize cur vs active = Ok (mp, keys) /\
    mp_verify (sha256 X) mp (mroot (sha256 X) (registry_tree (sha256 X) vs)) = Ok tt /\
    extract_validators_multiproof X mp keys cur = Ok out /\
    exact_registry (fun v pk => pk_deserialize (v_pubkey v) = Some pk) vs cur out.
Proof.
  intros X pkd cur vs active Hh Hk Hd Hw Hkd Hm.
  destruct (validators_multiproof_ok X pkd (fun v pk => pkd (v_pubkey v) = Some pk)) with (cur := cur) (vs := vs) (active := active)
    as (mp & keys & out & V1 & V2 & V3 & V4 & V5 & V6); auto.
  { intros v pk Hv. unfold key_of. now apply Hd. }
  exists mp, keys, out. split; [exact V1|]. split; [exact V2|]. split; [exact V3|].
  split; [now apply bm_sorted_keys|exact V6].
Qed.
Lemma h_keys vs cur : Forall (fun v => exists pk, h_deserialize (v_pubkey v) = Some pk) vs -> keys_decode h_deserialize vs cur.
Proof. intros F v Hv _. rewrite Forall_forall in F. now apply F. Qed.
Lemma h_keys_g : keys_decode h_deserialize g_vs 9.
Proof. apply h_keys. repeat (apply Forall_cons; [eexists; vm_compute; reflexivity|]). constructor. Qed.
(** The registry of the toy chain has an exited validator (index 4), a slashed one and a pending one. *)
Example C31_nonvacuous :
  decodes g_X h_deserialize /\ wf_registry g_vs /\ keys_decode h_deserialize g_vs 9 /\ keys_match h_deserialize g_vs [] /\
  exists mp keys out, validators_multiproof g_X h_deserialize 9 g_vs [] = Ok (mp, keys) /\
    extract_validators_multiproof g_X mp keys 9 = Ok out /\ bm_get out 4 = None /\ bm_get out 9 <> None.
Proof.
  assert (W : wf_registry g_vs) by apply g_wf.
  assert (K : keys_match h_deserialize g_vs []) by (intros ? ? ? ? []).
  split; [exact h_decodes|]. split; [exact W|]. split; [exact h_keys_g|]. split; [exact K|].
  destruct (C31_registry_proof_accepted g_X h_deserialize 9 g_vs [] g_hash32 g_pk48 h_decodes W h_keys_g K)
    as (mp & keys & out & E1 & _ & E3 & _ & E4).
  exists mp, keys, out. split; [exact E1|]. split; [exact E3|]. split.
  - specialize (E4 4). cbn [N.to_nat Pos.to_nat Pos.iter_op Nat.add nth_error g_vs] in E4.
    destruct (bm_get out 4); [|reflexivity]. destruct E4 as [E4 _]. discriminate E4.
  - specialize (E4 9). cbn [N.to_nat Pos.to_nat Pos.iter_op Nat.add nth_error g_vs] in E4.
    destruct (bm_get out 9); [discriminate|]. exfalso. apply E4. reflexivity.
Qed.
(** A key that cannot be decoded makes the host panic instead. *)
Example C31_undecodable_panics :
  validators_multiproof g_X (fun _ => None) 9 g_vs [] = Panic.
Proof. vm_compute. reflexivity. Qed.

(** Whatever the states are, the patches of an input exist exactly for the target epochs; each holds
    exactly one RANDAO mix, the one that seeds the epoch's committees, from the state at the start of
    that epoch; and its exits are exactly the exit epochs that differ between that state and the
    trusted state (none for the trusted epoch). *)
Theorem C53_patches_exact : forall X cs pk_deserialize states headers trusted R atts post gi,
  sane_spec X cs ->
  to_input X cs pk_deserialize states headers trusted R (recorded_reads X cs atts post) = Ok gi ->
  exists st, checkpoint_state X cs states trusted = Ok st /\
    sorted_map (gi_patches gi) /\
    (forall e, In e (map fst (gi_patches gi)) <-> In e (target_epochs atts)) /\
    (forall e p, In (e, p) (gi_patches gi) -> exists st' mix,
       states (start_slot cs e) = Ok st' /\
       nth_error (hs_randao_mixes st') (N.to_nat (seed_epoch_index cs e)) = Some mix /\
       randao_mixes p = [(seed_epoch_index cs e, mix)] /\
       (if e =? epoch trusted then validator_exits p = []
        else exit_changes (st_validators (hs_state st')) (st_validators (hs_state st)) (validator_exits p))).
Proof.
  intros X cs pkd states headers trusted R atts post gi Sane E. apply to_input_patches in E as (st & E1 & E2).
  exists st. split; [exact E1|]. apply recorded_patches in E2 as (P1 & P2 & P3); auto.
  split; [now apply bm_sorted_keys|]. split; [exact P2|exact P3].
Qed.
Example C53_nonvacuous :
  to_input g_X toy_cs h_deserialize h_states h_headers (finalized g_trusted) h_R (recorded_reads g_X toy_cs g_atts h_post) = Ok g_input /\
  sane_spec g_X toy_cs /\ gi_patches g_input = g_patches /\
  exists p, In (13, p) (gi_patches g_input) /\ validator_exits p = [(5, 16)].
Proof.
  split; [exact h_input|]. split; [exact toy_sane|]. split; [reflexivity|].
  eexists. split; [right; left; reflexivity|reflexivity].
Qed.

(** Completeness: an input that the host has built is accepted by the guest, on any platform, when
    the states at the target epochs show no new exits; and then the guest's reader answers from the
    same data as the host. *)
Theorem C52_host_input_accepted : forall X bits cs pk_deserialize states headers trusted st R cst active atts post gi,
  sound_data X cs pk_deserialize headers trusted st [root (finalized post)] ->
  sane_spec X cs -> far_future_epoch cs = 2 ^ 64 - 1 -> 1 <= epoch trusted ->
  epoch (current_justified cst) + 1 + max_seed_lookahead cs < 2 ^ 64 ->
  epoch trusted + 1 + max_seed_lookahead cs < 2 ^ 64 ->
  balances_fit cs (st_validators (hs_state st)) ->
  (* the host's sources *)
  checkpoint_state X cs states trusted = Ok st ->
  rd_consensus_state R = Ok cst -> finalized cst = trusted -> rd_attestations R = Ok atts ->
  rd_active_validators R (epoch trusted) = Ok active -> keys_match pk_deserialize (st_validators (hs_state st)) active ->
  (* no exits since the trusted state *)
  (forall e st', In e (target_epochs atts) -> epoch trusted <= e /\
     (states (start_slot cs e) = Ok st' -> exit_changes (st_validators (hs_state st')) (st_validators (hs_state st)) [])) ->
  to_input X cs pk_deserialize states headers trusted R (recorded_reads X cs atts post) = Ok gi ->
  exists r, into_reader (on_platform X bits) cs gi = Ok r /\
    answers_faithfully cs pk_deserialize states headers trusted st cst atts (root (finalized post)) (guest_reader r).
Proof.
  intros X bits cs pkd states headers trusted st R cst active atts post gi D Sane Hff Ht Hc Htr B Ec Es Ef Eat Ea Hk Hx E.
  destruct (host_guest X bits cs pkd states headers trusted st R post gi cst active atts D Ec Es Ef Eat Ea Hk Hc Sane Hff Ht E)
    as (vals & r & G1 & G2 & G3).
  set (l := map _ _) in *. exists r.
  assert (V : validate_state_patches cs (gi_patches gi) (epoch trusted) (state_info (sha256 X) (hs_state st)) (upds cs l vals) = Ok tt).
  { eapply validate_patches_total.
    - eapply balances_numbers; [exact B|exact G1|]. unfold activation_exit_epoch. lia.
    - apply no_exits_accepted. apply Forall_forall. intros [e p] Hi. cbn [fst snd].
      apply to_input_patches in E as (st1 & E1 & E2). rewrite Ec in E1. injection E1 as <-.
      apply recorded_patches in E2 as (P1 & P2 & P3); auto.
      destruct (P3 e p Hi) as (st' & mix & Q1 & _ & _ & Q2).
      destruct (Hx e st') as [H1 H2]; [apply P2; now apply (in_map fst) in Hi|]. split; [exact H1|].
      destruct (e =? epoch trusted); [exact Q2|]. specialize (H2 Q1).
      destruct Q2 as [_ Q2], H2 as [_ H2]. destruct (validator_exits p) as [|[i x] t] eqn:Ep; [reflexivity|].
      specialize (Q2 i). specialize (H2 i). rewrite <- Q2 in H2. cbn [bm_get] in H2. rewrite N.eqb_refl in H2. discriminate. }
  rewrite V in G2. split; [exact G2|]. now apply G3.
Qed.
(** In general only the check of the patches' exits can fail, on a registry that holds the
    validators of the trusted state. *)
Theorem C52_only_exits_can_fail : forall X bits cs pk_deserialize states headers trusted st R cst active atts post gi,
  sound_data X cs pk_deserialize headers trusted st [root (finalized post)] ->
  sane_spec X cs -> far_future_epoch cs = 2 ^ 64 - 1 -> 1 <= epoch trusted ->
  epoch (current_justified cst) + 1 + max_seed_lookahead cs < 2 ^ 64 ->
  checkpoint_state X cs states trusted = Ok st ->
  rd_consensus_state R = Ok cst -> finalized cst = trusted -> rd_attestations R = Ok atts ->
  rd_active_validators R (epoch trusted) = Ok active -> keys_match pk_deserialize (st_validators (hs_state st)) active ->
  to_input X cs pk_deserialize states headers trusted R (recorded_reads X cs atts post) = Ok gi ->
  exists reg si r,
    (forall i, match nth_error (st_validators (hs_state st)) (N.to_nat i), bm_get reg i with
               | Some v, Some vi => epoch trusted < v_exit_epoch v /\ voter_of pk_deserialize v vi /\ exit_epoch vi = v_exit_epoch v
               | Some v, None => v_exit_epoch v <= epoch trusted
               | None, Some _ => False
               | None, None => True
               end) /\
    si_earliest_exit_epoch si = st_earliest_exit_epoch (hs_state st) /\
    si_earliest_consolidation_epoch si = st_earliest_consolidation_epoch (hs_state st) /\
    into_reader (on_platform X bits) cs gi = (_ <- validate_state_patches cs (gi_patches gi) (epoch trusted) si reg ;; Ok r) /\
    (validate_state_patches cs (gi_patches gi) (epoch trusted) si reg = Ok tt ->
     answers_faithfully cs pk_deserialize states headers trusted st cst atts (root (finalized post)) (guest_reader r)).
Proof.
  intros X bits cs pkd states headers trusted st R cst active atts post gi D Sane Hff Ht Hc Ec Es Ef Eat Ea Hk E.
  destruct (host_guest X bits cs pkd states headers trusted st R post gi cst active atts D Ec Es Ef Eat Ea Hk Hc Sane Hff Ht E)
    as (vals & r & G1 & G2 & G3).
  set (l := map _ _) in *. exists (upds cs l vals), (state_info (sha256 X) (hs_state st)), r.
  split. { intros i. destruct G1 as [_ G1]. specialize (G1 i). rewrite bm_get_upd.
    destruct (nth_error (st_validators (hs_state st)) (N.to_nat i)) as [v|], (bm_get vals i) as [vi|]; cbn [option_map]; auto.
    destruct G1 as (F1 & pk & F2 & ->). split; [exact F1|].
    destruct (upd1_fields cs l (record_of v pk)) as (U1 & U2 & U3 & U4). unfold voter_of. rewrite U1, U2, U3, U4.
    unfold record_of. cbn [pubkey effective_balance slashed exit_epoch]. auto. }
  split; [reflexivity|]. split; [reflexivity|]. split; [exact G2|exact G3].
Qed.
Lemma h_sound : sound_data g_X toy_cs h_deserialize h_headers (finalized g_trusted) (h_hstate 18 g_vs) [root (finalized h_post)].
Proof.
  constructor.
  - exact g_hash32.
  - exact g_pk48.
  - exact h_decodes.
  - exact (proj2 (proj2 g_wf)).
  - repeat split; vm_compute; reflexivity.
  - exact h_keys_g.
  - reflexivity.
  - intros r h _ E. unfold h_headers in E. destruct (bytes_eqb r g_root12); [|discriminate]. injection E as <-. apply g_wf.
Qed.
(** And the host can build the input whenever its sources deliver: the trusted state, the states and
    mixes of the target epochs, the active set, and the header of the last finalized block. *)
Theorem C52_host_builds_input : forall X cs pk_deserialize states headers trusted st R active atts post cst h,
  sound_data X cs pk_deserialize headers trusted st [root (finalized post)] -> sane_spec X cs ->
  checkpoint_state X cs states trusted = Ok st -> hs_supported st = true ->
  rd_consensus_state R = Ok cst -> rd_attestations R = Ok atts ->
  rd_active_validators R (epoch trusted) = Ok active -> keys_match pk_deserialize (st_validators (hs_state st)) active ->
  (forall e, In e (target_epochs atts) -> exists st', states (start_slot cs e) = Ok st' /\
     nth_error (hs_randao_mixes st') (N.to_nat (seed_epoch_index cs e)) <> None) ->
  headers (root (finalized post)) = Ok (Some h) -> mroot (sha256 X) (header_tree (sha256 X) h) = root (finalized post) ->
  exists gi, to_input X cs pk_deserialize states headers trusted R (recorded_reads X cs atts post) = Ok gi.
Proof. exact to_input_total. Qed.
Lemma h_checkpoint vs13 : checkpoint_state g_X toy_cs (h_states_of vs13) (finalized g_trusted) = Ok (h_hstate 18 g_vs).
Proof.
  unfold checkpoint_state, state_at_checkpoint, state_at_epoch_boundary, state_at_epoch.
  change (h_states_of vs13 (start_slot toy_cs (epoch (finalized g_trusted)))) with (@Ok ProviderError _ (h_hstate 18 g_vs)).
  cbn [bind]. change (hd_slot (hs_header (h_hstate 18 g_vs)) =? st_slot (hs_state (h_hstate 18 g_vs))) with true. cbn [bind].
  assert (E : bytes_eqb (root (finalized g_trusted)) (boundary_root g_X (h_hstate 18 g_vs)) = true) by (vm_compute; reflexivity).
  rewrite E. reflexivity.
Qed.
Definition h_active : list (ValidatorIndex * ValidatorInfo) :=
  Eval vm_compute in match rd_active_validators h_R 9 with Ok l => l | _ => [] end.
Lemma h_active_ok : rd_active_validators h_R_quiet 9 = Ok h_active.
Proof. vm_compute. reflexivity. Qed.
Lemma h_match : keys_match h_deserialize g_vs h_active.
Proof.
  intros i v vi Hv Hi. unfold h_active in Hi. cbn [In] in Hi.
  repeat (destruct Hi as [Hi|Hi]; [injection Hi as <- <-; vm_compute in Hv; injection Hv as <-; vm_compute; reflexivity|]). destruct Hi.
Qed.
Lemma exit_same vs : exit_changes vs vs [].
Proof. split; [constructor|]. intros i. cbn [bm_get]. destruct (nth_error vs (N.to_nat i)); [|reflexivity]. now rewrite N.eqb_refl. Qed.
(** All hypotheses hold for the toy chain; the proof that it is accepted needs no computation. *)
Example C52_nonvacuous : exists gi r,
  to_input g_X toy_cs h_deserialize h_quiet h_headers (finalized g_trusted) h_R_quiet (recorded_reads g_X toy_cs g_atts h_post) = Ok gi /\
  into_reader (on_platform g_X 64) toy_cs gi = Ok r /\
  answers_faithfully toy_cs h_deserialize h_quiet h_headers (finalized g_trusted) (h_hstate 18 g_vs) g_trusted g_atts g_root12 (guest_reader r).
Proof.
  assert (T : target_epochs g_atts = [12; 12; 13; 13]) by reflexivity.
  destruct (C52_host_builds_input g_X toy_cs h_deserialize h_quiet h_headers (finalized g_trusted) (h_hstate 18 g_vs) h_R_quiet h_active g_atts h_post g_trusted g_header12)
    as (gi & E).
  - exact h_sound.
  - exact toy_sane.
  - apply h_checkpoint.
  - reflexivity.
  - reflexivity.
  - reflexivity.
  - exact h_active_ok.
  - exact h_match.
  - rewrite T. intros e He. cbn [In] in He. repeat destruct He as [He|He]; try contradiction; subst e; (eexists; split; [reflexivity|vm_compute; discriminate]).
  - reflexivity.
  - vm_compute. reflexivity.
  - exists gi. destruct (C52_host_input_accepted g_X 64 toy_cs h_deserialize h_quiet h_headers (finalized g_trusted) (h_hstate 18 g_vs) h_R_quiet g_trusted h_active g_atts h_post gi)
      as (r & E1 & E2).
    + exact h_sound.
    + exact toy_sane.
    + reflexivity.
    + vm_compute. discriminate.
    + vm_compute. reflexivity.
    + vm_compute. reflexivity.
    + split; [discriminate|split; [discriminate|vm_compute; reflexivity]].
    + apply h_checkpoint.
    + reflexivity.
    + reflexivity.
    + reflexivity.
    + exact h_active_ok.
    + exact h_match.
    + intros e st' He. rewrite T in He. cbn [In] in He.
      repeat destruct He as [He|He]; try contradiction; subst e; (split; [vm_compute; discriminate|]); intros E'; injection E' as <-; apply exit_same.
    + exact E.
    + exists r. auto.
Qed.
(** With the exit of validator 5, the input is accepted as well (its epoch is far enough away). *)
Example C52_with_exit : exists r, into_reader (on_platform g_X 64) toy_cs g_input = Ok r.
Proof. exists g_reader. rewrite into_reader_platform. exact g_accepted. Qed.

Print Assumptions C31_registry_proof_accepted.
Print Assumptions C52_host_input_accepted.
Print Assumptions C52_only_exits_can_fail.
Print Assumptions C52_host_builds_input.
Print Assumptions C53_patches_exact.
Print Assumptions C52_nonvacuous.
