(** C44, C51: input framing and cross-check of the guest's journal. *)
From Coq Require Import List ZArith NArith Bool Lia.
From Coq Require Import ZifyBool ZifyNat ZifyN.
From Coq.Init Require Import Byte.
From Verif.Model Require Import Base Types ConsensusState Verify GuestReader Guest Cli.
From Verif.Spec Require Import FFG VerifySpec.
From Verif.Proof Require Import BaseLemmas AbiP ConsensusStateP VerifyP GuestP EndToEndP.
From Verif.Props Require Import VerifyProps ConsensusProps GuestToy EndToEndProps.
From Verif.Spec Require Import FFG.
Import ListNotations.
Open Scope N_scope.

(** ** C44: framing *)
(** What the guest reads from the framed input: the first [length mod 2^32] bytes. *)
Theorem C44_frame data : read_frame (encode_input_stdin data) =
  Ok (firstn (N.to_nat (N.of_nat (length data) mod 2 ^ 32)) data,
      skipn (N.to_nat (N.of_nat (length data) mod 2 ^ 32)) data).
Proof.
  unfold read_frame, encode_input_stdin. set (m := N.of_nat (length data) mod 2 ^ 32).
  assert (Hm : m < 256 ^ N.of_nat 4) by (apply N.mod_lt; lia).
  assert (Hle : (N.to_nat m <= length data)%nat).
  { pose proof (N.mod_le (N.of_nat (length data)) (2 ^ 32)). fold m in H. lia. }
  clearbody m. pose proof (le_bytes_length 4 m) as L.
  unfold slice at 1. replace (Nat.leb (0 + 4) (length (le_bytes 4 m ++ data))) with true
    by (symmetry; apply Nat.leb_le; rewrite app_length; lia).
  change (skipn 0 (le_bytes 4 m ++ data)) with (le_bytes 4 m ++ data).
  replace (firstn 4 (le_bytes 4 m ++ data)) with (le_bytes 4 m)
    by (rewrite firstn_app, L, Nat.sub_diag, firstn_all2 by lia; cbn [firstn]; now rewrite app_nil_r).
  cbn [bind expect]. rewrite le_val_le_bytes_small by exact Hm.
  unfold slice. replace (Nat.leb (4 + N.to_nat m) (length (le_bytes 4 m ++ data))) with true
    by (symmetry; apply Nat.leb_le; rewrite app_length; lia).
  cbn [expect bind]. rewrite !skipn_app, L, Nat.sub_diag, (skipn_all2 (n := 4)), (skipn_all2 (n := 4 + N.to_nat m)) by lia.
  replace (4 + N.to_nat m - 4)%nat with (N.to_nat m) by lia. reflexivity.
Qed.
(** The frame is the input exactly for inputs shorter than 2^32 bytes. *)
Theorem C44_round_trip_iff data :
  read_frame (encode_input_stdin data) = Ok (data, []) <-> N.of_nat (length data) < 2 ^ 32.
Proof.
  rewrite C44_frame. split.
  - intros H. injection H as H _. apply (f_equal (@length byte)) in H. rewrite firstn_length in H.
    pose proof (N.mod_lt (N.of_nat (length data)) (2 ^ 32)). lia.
  - intros H. rewrite N.mod_small by exact H. rewrite Nnat.Nat2N.id. now rewrite firstn_all, skipn_all.
Qed.
(** The guest program run on the framed input is the guest program on the input. *)
Theorem C44_guest_input X decode cs cfg data : N.of_nat (length data) < 2 ^ 32 ->
  guest_main X decode cs cfg (encode_input_stdin data) = entry X decode cs cfg data.
Proof. intros H. unfold guest_main. now rewrite (proj2 (C44_round_trip_iff data) H). Qed.
Lemma long_input n : n = 2 ^ 32 ->
  let data := repeat x00 (N.to_nat n) in read_frame (encode_input_stdin data) = Ok ([], data) /\ data <> [].
Proof.
  intros Hn. cbn zeta. split.
  - rewrite C44_frame, repeat_length, N2Nat.id. replace (n mod 2 ^ 32) with 0 by (subst; reflexivity). reflexivity.
  - assert (Hp : exists k, N.to_nat n = S k) by (exists (N.to_nat (n - 1)); lia).
    destruct Hp as [k ->]. discriminate.
Qed.
Theorem C44_long_input_refuted : exists data, read_frame (encode_input_stdin data) = Ok ([], data) /\ data <> [].
Proof. eexists. exact (long_input _ eq_refl). Qed.
Example C44_nonvacuous : read_frame (encode_input_stdin [x01; x02; x03]) = Ok ([x01; x02; x03], []) /\
  encode_input_stdin [x01; x02; x03] = [x03; x00; x00; x00; x01; x02; x03].
Proof. split; vm_compute; reflexivity. Qed.

(** ** C51: cross-check of the guest *)
Lemma state_eqb_eq a b : state_eqb a b = true <-> a = b.
Proof.
  unfold state_eqb. rewrite andb_true_iff, !checkpoint_eqb_eq. destruct a, b; cbn. split; [intros [-> ->]; auto|].
  intros H. now injection H.
Qed.
(** Whatever the executor returns, an accepted run has a journal that begins with the words of the
    expected pre-state and of the post-state computed on the host. *)
Theorem C51_accepted_journal X decode executor cs cfg pre input post :
  run_verify X decode executor cs cfg true pre input = Ok post ->
  exists gi r slot journal,
    decode input = Some gi /\ into_reader X cs gi = Ok r /\ verify X cfg (guest_reader r) = Ok (post, slot) /\
    executor input = Some journal /\
    abi_decode (firstn 128 journal) = Ok pre /\ abi_decode (skipn 128 journal) = Ok post.
Proof.
  unfold run_verify. intros H.
  apply bind_ok in H as (gi & H1 & H). apply (proj1 (ok_or_ok _ _ _)) in H1.
  apply bind_ok in H as (r & H2 & H). apply (proj1 (map_err_ok _ _ _)) in H2.
  apply bind_ok in H as ([post' slot] & H3 & H). apply (proj1 (map_err_ok _ _ _)) in H3.
  apply bind_ok in H as (j & H4 & H). apply (proj1 (ok_or_ok _ _ _)) in H4.
  apply bind_ok in H as (u & _ & H).
  apply bind_ok in H as (gp & H5 & H). apply (proj1 (map_err_ok _ _ _)) in H5.
  apply bind_ok in H as (gq & H6 & H). apply (proj1 (map_err_ok _ _ _)) in H6.
  apply bind_ok in H as (u1 & H7 & H). apply bind_ok in H as (u2 & H8 & H). injection H as ->.
  unfold ensure in H7, H8. destruct (state_eqb gq post) eqn:E1; [|discriminate]. destruct (state_eqb gp pre) eqn:E2; [|discriminate].
  apply state_eqb_eq in E1, E2. subst. exists gi, r, slot, j. auto 10.
Qed.
Lemma chain_wf s ls t : accepted_chain s ls t -> FFG.wf_state s -> Forall wf_link ls -> FFG.wf_state t.
Proof.
  assert (G : forall c ls f t, atomic_finalization c ls f t -> wf_checkpoint c -> Forall wf_link ls -> wf_checkpoint f /\ wf_checkpoint t).
  { induction 1 as [c0 t0 H|c0 b ls0 f0 t0 H Ha IH]; intros Hc Hl; inversion Hl as [|? ? [L1 L2] Hl']; subst; cbn in *; auto. }
  intros H Hs Hl. destruct H as [s0 ls f t0 Hv Hne Ha|b ls f t0 Hb Ha].
  - destruct (G _ _ _ _ Ha (proj1 Hs) Hl). split; auto.
  - inversion Hl as [|? ? [L1 L2] Hl']; subst. destruct (G _ _ _ _ Ha L2 Hl'). split; auto.
Qed.
(** With the real guest program and the pre-state of the input, the cross-check never fails and
    never panics: running in the zkVM gives the result of the host run. *)
Theorem C51_cross_check_agrees X decode cs cfg input gi :
  decode input = Some gi -> FFG.wf_state (gi_consensus_state gi) ->
  Forall (fun a => wf_link (link_of a)) (gi_attestations gi) ->
  let executor b := match entry X decode cs cfg b with Ok j => Some j | _ => None end in
  run_verify X decode executor cs cfg true (gi_consensus_state gi) input =
  run_verify X decode executor cs cfg false (gi_consensus_state gi) input.
Proof.
  intros Hd Hw Hl. cbn zeta. unfold run_verify, entry. rewrite Hd. cbn [ok_or bind expect].
  destruct (into_reader X cs gi) as [r| |] eqn:Er; cbn [map_err bind unwrap]; auto.
  assert (Hst : rd_consensus_state (guest_reader r) = Ok (gi_consensus_state gi)).
  { apply into_reader_ok in Er as (sr & si & vals & _ & _ & _ & _ & _ & _ & _ & _ & _ & _ & _ & _ & _ & Er & _).
    cbn [guest_reader rd_consensus_state]. now rewrite Er. }
  assert (Hat : rd_attestations (guest_reader r) = Ok (gi_attestations gi)).
  { apply into_reader_ok in Er as (sr & si & vals & _ & _ & _ & _ & _ & _ & _ & _ & _ & _ & _ & _ & _ & _ & Er).
    cbn [guest_reader rd_attestations]. now rewrite Er. }
  rewrite Hst. cbn [unwrap bind]. destruct (verify X cfg (guest_reader r)) as [[post slot]| |] eqn:Ev; cbn [map_err bind unwrap ok_or]; auto.
  apply verify_sound in Ev as (st0 & atts & gs & V1 & V2 & V3 & V4 & _). rewrite Hst in V1. injection V1 as <-.
  rewrite Hat in V2. injection V2 as <-.
  assert (Hls : Forall wf_link (map fst gs)).
  { destruct V3 as (Hc & Hgo & _). rewrite Forall_forall in Hgo, Hl. apply Forall_forall. intros l Hin.
    apply in_map_iff in Hin as (g & <- & Hin). destruct (Hgo g Hin) as [Hne Hk].
    destruct g as [l [|a g]]; [easy|]. rewrite <- (Hk a) by (simpl; auto). apply Hl. rewrite <- Hc.
    apply in_concat. exists (a :: g). split; [|simpl; auto]. apply in_map_iff. eexists. split; [|exact Hin]. reflexivity. }
  pose proof (chain_wf _ _ _ V4 Hw Hls) as Hwp.
  assert (Hv : valid_state (gi_consensus_state gi) /\ valid_state post).
  { clear - V4. assert (G : forall c ls f t, atomic_finalization c ls f t -> epoch f < epoch t).
    { induction 1; cbn in *; lia. }
    destruct V4 as [s0 ls0 f t0 Hv Hne Ha|b ls0 f t0 Hb Ha]; apply G in Ha; split; auto; try (left; exact Ha); try (right; reflexivity). }
  destruct Hv as [Hv Hvp].
  pose proof (C06_host_decodes_journal _ _ slot Hw Hwp Hv Hvp) as [J1 J2].
  assert (Lj : (128 <= length (journal_encode (gi_consensus_state gi) post slot))%nat).
  { unfold journal_encode. rewrite app_length, (abi_state_length _ Hw). lia. }
  unfold abi_encoded_size. rewrite (proj2 (Nat.leb_le _ _) Lj). cbn [assert_ bind].
  rewrite J1, J2. cbn [map_err bind]. rewrite !(proj2 (state_eqb_eq _ _) eq_refl). reflexivity.
Qed.
(** A wrong pre-state is noticed. *)
Theorem C51_detects_wrong_pre X decode executor cs cfg pre input post gi r post' slot :
  decode input = Some gi -> into_reader X cs gi = Ok r -> verify X cfg (guest_reader r) = Ok (post', slot) ->
  executor input = Some (journal_encode (gi_consensus_state gi) post slot) ->
  FFG.wf_state (gi_consensus_state gi) -> FFG.wf_state post ->
  (pre <> gi_consensus_state gi \/ post <> post') ->
  run_verify X decode executor cs cfg true pre input <> Ok post'.
Proof.
  intros Hd Hr Hv He Hw Hwp Hne H. apply C51_accepted_journal in H as (gi' & r' & slot' & j & D & R & V & E & J1 & J2).
  rewrite E in He. injection He as ->.
  unfold journal_encode in J1, J2. pose proof (abi_state_length _ Hw) as Lp.
  rewrite firstn_app, Lp, firstn_all2, Nat.sub_diag in J1 by lia. cbn [firstn] in J1.
  rewrite skipn_app, skipn_all2, Lp, Nat.sub_diag in J2 by lia. cbn [skipn app] in J2.
  rewrite abi_decode_enc in J1, J2 by auto. destruct (is_valid (gi_consensus_state gi)); [|discriminate].
  destruct (is_valid post); [|discriminate]. injection J1 as <-. injection J2 as <-. tauto.
Qed.
Lemma run_native X decode executor cs cfg pre input gi r post slot :
  decode input = Some gi -> into_reader X cs gi = Ok r -> verify X cfg (guest_reader r) = Ok (post, slot) ->
  run_verify X decode executor cs cfg false pre input = Ok post.
Proof. intros D R V. unfold run_verify. rewrite D. cbn [ok_or bind]. rewrite R. cbn [map_err bind]. rewrite V. reflexivity. Qed.
Example C51_nonvacuous :
  let executor b := match entry g_X (fun _ => Some g_input) toy_cs DEFAULT_CONFIG b with Ok j => Some j | _ => None end in
  run_verify g_X (fun _ => Some g_input) executor toy_cs DEFAULT_CONFIG true (gi_consensus_state g_input) [x01] =
    Ok (mkCS (mkCheckpoint 13 (toy_root 13)) (mkCheckpoint 12 g_root12)).
Proof.
  cbn zeta. rewrite C51_cross_check_agrees with (gi := g_input).
  - eapply run_native with (slot := 24); [reflexivity|exact g_accepted|vm_compute; reflexivity].
  - reflexivity.
  - repeat split; vm_compute; reflexivity.
  - repeat constructor; vm_compute; reflexivity.
Qed.

Print Assumptions C44_frame.
Print Assumptions C44_round_trip_iff.
Print Assumptions C44_guest_input.
Print Assumptions C44_long_input_refuted.
Print Assumptions C51_accepted_journal.
Print Assumptions C51_cross_check_agrees.
Print Assumptions C51_detects_wrong_pre.
