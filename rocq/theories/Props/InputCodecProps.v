(** C63: the serialization of the guest's input. *)
From Coq Require Import List ZArith NArith Bool Lia Sorted.
From Coq Require Import ZifyBool ZifyNat ZifyN.
From Coq.Init Require Import Byte.
From Verif.Model Require Import Base Types ConsensusState Multiproof StateFile Verify GuestReader Guest HostChain HostStore HostInput Cli CliRun InputCodec.
From Verif.Spec Require FFG.
From Verif.Spec Require Import Merkle Ssz Beacon GuestSpec Committees VerifySpec HostInputSpec CliSpec InputCodecSpec InputFormat.
From Verif.Proof Require Import BaseLemmas AbiP VerifyP GuestP EndToEndP HostInputP HostGuestP PipelineP StateFileP InputCodecP InputFormatP.
From Verif.Props Require Import ConsensusProps VerifyProps CliProps GuestToy HostToy HostInputProps ReplayProps PipelineProps CliRunProps.
Import ListNotations.
Open Scope N_scope.
Notation length := List.length.

(** Every well-formed input is read back, whatever follows it. *)
Theorem C63_round_trip C w gi rest : sane_codec C -> 32 <= w <= 64 -> wf_input C w gi ->
  decode_input C w (encode_input C gi ++ rest) = Some gi.
Proof. intros S Hw W. unfold decode_input. now rewrite (rt_input C w gi S Hw W). Qed.
(** No input is read from a file that was cut short. *)
Theorem C63_truncated C w gi n : sane_codec C -> 32 <= w <= 64 -> wf_input C w gi ->
  (n < length (encode_input C gi))%nat -> decode_input C w (firstn n (encode_input C gi)) = None.
Proof.
  intros S Hw W Hn. unfold decode_input. destruct (p_input C w (firstn n (encode_input C gi))) as [[x r]|] eqn:E; [|reflexivity].
  apply (mono_input C w _ _ _ (skipn n (encode_input C gi))) in E. rewrite firstn_skipn in E.
  pose proof (rt_input C w gi S Hw W []) as R. rewrite app_nil_r, E in R. injection R as _ R. apply app_eq_nil in R as [_ R].
  apply (f_equal (@length byte)) in R. rewrite skipn_length in R. cbn [length] in R. lia.
Qed.
(** Different inputs have different encodings, and none is the beginning of another one. *)
Theorem C63_prefix_free C w gi gi' rest rest' : sane_codec C -> 32 <= w <= 64 -> wf_input C w gi -> wf_input C w gi' ->
  encode_input C gi ++ rest = encode_input C gi' ++ rest' -> gi = gi' /\ rest = rest'.
Proof.
  intros S Hw W W' E. pose proof (rt_input C w gi S Hw W rest) as R. rewrite E, (rt_input C w gi' S Hw W' rest') in R.
  injection R as -> ->. auto.
Qed.
(** Whatever bytes are accepted, the result is well-formed, and its encoding is accepted with the same
    result. *)
Theorem C63_decoded C w b gi : sane_codec C -> 32 <= w <= 64 -> decode_input C w b = Some gi ->
  wf_input C w gi /\ decode_input C w (encode_input C gi) = Some gi.
Proof.
  intros S Hw D. unfold decode_input in D. destruct (p_input C w b) as [[x r]|] eqn:E; [|discriminate]. injection D as ->.
  assert (W : wf_input C w gi) by (eapply gives_input; eauto). split; [exact W|].
  rewrite <- (app_nil_r (encode_input C gi)). now apply C63_round_trip.
Qed.
(** Exactly the byte strings that begin with something in the format are accepted, and what is returned
    is the value that they denote. *)
Theorem C63_accepted C w b gi : sane_codec C -> 32 <= w <= 64 ->
  decode_input C w b = Some gi <-> exists pre rest, b = pre ++ rest /\ input_format C w gi pre.
Proof.
  intros S Hw. unfold decode_input. split.
  - destruct (p_input C w b) as [[x r]|] eqn:E; [|discriminate]. intros G. injection G as ->.
    apply (ex_input C w S Hw) in E as (pre & -> & H). eauto.
  - intros (pre & rest & -> & H). now rewrite (proj2 (ex_input C w S Hw (pre ++ rest) gi rest)) by eauto.
Qed.
(** What is written is in the format; a byte string in the format denotes one value only. *)
Theorem C63_written C w gi : sane_codec C -> 32 <= w <= 64 -> wf_input C w gi -> input_format C w gi (encode_input C gi).
Proof.
  intros S Hw W. pose proof (rt_input C w gi S Hw W []) as R. apply (ex_input C w S Hw) in R as (pre & E & H).
  rewrite !app_nil_r in E. now rewrite E.
Qed.
Theorem C63_unambiguous C w gi gi' b : sane_codec C -> 32 <= w <= 64 -> input_format C w gi b -> input_format C w gi' b -> gi = gi'.
Proof.
  intros S Hw H H'. assert (E : decode_input C w b = Some gi) by (apply C63_accepted; auto; exists b, []; now rewrite app_nil_r).
  assert (E' : decode_input C w b = Some gi') by (apply C63_accepted; auto; exists b, []; now rewrite app_nil_r). congruence.
Qed.
(** The narrower platform reads the same or nothing. *)
Theorem C63_platforms C w w' b gi : w <= w' -> decode_input C w b = Some gi -> decode_input C w' b = Some gi.
Proof.
  intros H. unfold decode_input. destruct (p_input C w b) as [[x r]|] eqn:E; [|discriminate]. intros G. injection G as ->.
  now rewrite (ext_input C w w' H _ _ _ E).
Qed.
(** On what the host writes, the guest reads exactly the inputs that fit its platform; it never reads
    a different input. *)
Theorem C63_guest_exact C w w' gi : sane_codec C -> 32 <= w -> w <= w' -> w' <= 64 -> wf_input C w' gi ->
  (wf_input C w gi -> decode_input C w (encode_input C gi) = Some gi) /\
  (~ wf_input C w gi -> decode_input C w (encode_input C gi) = None).
Proof.
  intros S H1 H2 H3 W. split.
  - intros W'. rewrite <- (app_nil_r (encode_input C gi)). apply C63_round_trip; auto. lia.
  - intros NW. destruct (decode_input C w (encode_input C gi)) as [gi'|] eqn:E; [|reflexivity]. exfalso. apply NW.
    pose proof (C63_platforms C w w' _ _ H2 E) as E'. rewrite <- (app_nil_r (encode_input C gi)), C63_round_trip in E' by (auto; lia).
    injection E' as <-. apply (C63_decoded C w _ _ S) in E; [apply E|lia].
Qed.

(** *** With the rest of the program *)
Lemma u64_from_chunk_u64 s : FFG.u64 (u64_from_chunk s).
Proof.
  unfold FFG.u64, u64_from_chunk. pose proof (le_val_bound (firstn 8 s)) as L. eapply N.lt_le_trans; [exact L|].
  change (2 ^ 64) with (256 ^ 8). apply N.pow_le_mono_r; [lia|]. rewrite firstn_length. lia.
Qed.
Lemma block_slots_u64 X mps : forall m m' : rmap N, (forall r s, rm_get m r = Some s -> FFG.u64 s) ->
  fold_outcome (block_slots_step X) mps m = Ok m' -> forall r s, rm_get m' r = Some s -> FFG.u64 s.
Proof.
  induction mps as [|mp mps IH]; intros m m' Hm E; cbn [fold_outcome] in E.
  - injection E as <-. exact Hm.
  - apply bind_ok in E as (m1 & E1 & E). eapply IH; [|exact E]. unfold block_slots_step in E1.
    apply bind_ok in E1 as (r1 & _ & E1). apply bind_ok in E1 as ([s rest] & _ & E1). injection E1 as <-.
    intros r v. rewrite rm_get_insert. destruct (bytes_eqb r r1); [|apply Hm]. intros G. injection G as <-. apply u64_from_chunk_u64.
Qed.
(** The run behind a committed journal. *)
Lemma guest_run C w X cs cfg stdin journal : sane_codec C -> 32 <= w <= 64 ->
  guest_main X (decode_input C w) cs cfg stdin = Ok journal ->
  exists frame gi r gs post slot,
    decode_input C w frame = Some gi /\ wf_input C w gi /\ into_reader X cs gi = Ok r /\
    verify X cfg (guest_reader r) = Ok (post, slot) /\
    groups (gi_attestations gi) gs /\ accepted_chain (gi_consensus_state gi) (map fst gs) post /\
    Forall (fun g => within_bounds cfg cs (finalized (gi_consensus_state gi)) (fst g) /\
                     exists av P, supermajority_link X cfg (guest_reader r) (fst g) (snd g) av P) gs /\
    journal = journal_encode (gi_consensus_state gi) post slot /\
    abi_decode (firstn 128 journal) = Ok (gi_consensus_state gi) /\ abi_decode (skipn 128 journal) = Ok post /\
    length journal = 288%nat /\ be_val (skipn 280 journal) = slot /\
    epoch (finalized (gi_consensus_state gi)) < epoch (finalized post) /\
    epoch (current_justified post) = epoch (finalized post) + 1.
Proof.
  intros S Hw H. unfold guest_main in H. destruct (read_frame stdin) as [[frame rest]| |]; cbn [bind] in H; try discriminate.
  unfold entry in H. destruct (decode_input C w frame) as [gi|] eqn:D; cbn [expect bind] in H; [|discriminate].
  destruct (C63_decoded C w frame gi S Hw D) as [W _].
  destruct (into_reader X cs gi) as [r| |] eqn:Er; cbn [unwrap bind] in H; try discriminate.
  pose proof Er as Er'. apply into_reader_ok in Er' as (sr & si & vals & _ & _ & _ & _ & _ & _ & _ & _ & _ & B & R0 & _ & _ & R1 & R2).
  cbn [guest_reader rd_consensus_state unwrap bind] in H. rewrite R1 in H.
  destruct (verify X cfg (guest_reader r)) as [[post slot]| |] eqn:V; cbn [unwrap bind] in H; try discriminate. injection H as <-.
  destruct (C10_result_bounds X cfg (guest_reader r) post slot (gi_consensus_state gi) V) as (B1 & B2 & _); [cbn [guest_reader rd_consensus_state]; now rewrite R1|].
  pose proof V as V0.
  apply verify_sound in V as (st0 & atts & gs & V1 & V2 & V3 & V4 & V5 & V6).
  cbn [guest_reader rd_consensus_state rd_attestations rd_slot_for_block rd_chain_spec] in V1, V2, V5, V6. rewrite R1 in V1. injection V1 as <-. rewrite R2 in V2. injection V2 as <-.
  rewrite R0 in V5.
  assert (Hwp : FFG.wf_state (gi_consensus_state gi)) by apply (wi_consensus _ _ _ W).
  assert (Hls : Forall FFG.wf_link (map fst gs)).
  { destruct V3 as (Hc & Hgo & _). pose proof (proj2 (wi_attestations _ _ _ W)) as Ha. rewrite Forall_forall in Hgo, Ha. apply Forall_forall. intros l Hin.
    apply in_map_iff in Hin as (g & <- & Hin). destruct (Hgo g Hin) as [Hne Hk].
    destruct g as [l [|a g]]; [easy|]. rewrite <- (Hk a) by (simpl; auto).
    assert (Ia : In a (gi_attestations gi)). { rewrite <- Hc. apply in_concat. exists (a :: g). split; [|simpl; auto]. apply in_map_iff. eexists. split; [|exact Hin]. reflexivity. }
    split; [apply (wa_source _ _ (Ha a Ia))|apply (wa_target _ _ (Ha a Ia))]. }
  pose proof (chain_wf _ _ _ V4 Hwp Hls) as Hwq.
  assert (Vp : FFG.valid_state (gi_consensus_state gi)) by (destruct V4 as [s0 ls0 f t0 Hv Hne Ha|b ls0 f t0 Hb Ha]; [exact Hv|right; reflexivity]).
  assert (Vq : FFG.valid_state post) by (left; lia).
  destruct (C06_host_decodes_journal _ _ slot Hwp Hwq Vp Vq) as [J1 J2].
  assert (Us : FFG.u64 slot).
  { destruct (rm_get (gr_block_slots r) (root (finalized post))) as [s|] eqn:G; [|discriminate]. cbn [ok_or] in V6. injection V6 as <-.
    eapply (block_slots_u64 X); [|exact B|exact G]. intros x y E. discriminate. }
  destruct (C06_journal_layout _ _ slot Hwp Hwq Us) as (L1 & _ & _ & _ & L5).
  exists frame, gi, r, gs, post, slot. auto 20.
Qed.
(** Whatever bytes the guest is started with, a committed journal has 288 bytes, and the host decodes
    it into two valid states of which the second finalizes a later epoch, and a slot. *)
Theorem C63_committed_journal C w X cs cfg stdin journal : sane_codec C -> 32 <= w <= 64 ->
  guest_main X (decode_input C w) cs cfg stdin = Ok journal ->
  exists pre post slot,
    journal = journal_encode pre post slot /\ length journal = 288%nat /\
    abi_decode (firstn 128 journal) = Ok pre /\ abi_decode (skipn 128 journal) = Ok post /\
    be_val (skipn 280 journal) = slot /\
    epoch (finalized pre) < epoch (finalized post) /\ epoch (current_justified post) = epoch (finalized post) + 1.
Proof.
  intros S Hw H. destruct (guest_run C w X cs cfg stdin journal S Hw H) as (frame & gi & r & gs & post & slot & R).
  exists (gi_consensus_state gi), post, slot. tauto.
Qed.
(** The cross-check of the CLI never fails on the guest program itself: no condition on the input is
    left. *)
Theorem C63_cross_check C w X cs cfg input gi : sane_codec C -> 32 <= w <= 64 -> decode_input C w input = Some gi ->
  let executor b := match entry X (decode_input C w) cs cfg b with Ok j => Some j | _ => None end in
  run_verify X (decode_input C w) executor cs cfg true (gi_consensus_state gi) input =
  run_verify X (decode_input C w) executor cs cfg false (gi_consensus_state gi) input.
Proof.
  intros S Hw D. destruct (C63_decoded C w input gi S Hw D) as [W _]. apply (C51_cross_check_agrees X _ cs cfg input gi D).
  - apply (wi_consensus _ _ _ W).
  - eapply Forall_impl; [|apply (proj2 (wi_attestations _ _ _ W))]. intros a A. split; [apply (wa_source _ _ A)|apply (wa_target _ _ A)].
Qed.
(** From the beacon node's answers to the journal: the guest, started with the framed bytes of the
    input that the host has built, commits what the host has predicted. *)
Theorem C63_end_to_end C :
  forall X bits cs pk_deserialize states headers blocks collect cfg finalized_epoch gi pre post slot st,
  (forall c cst atts, collect c = Ok (cst, atts) -> finalized cst = c) ->
  prepare_input X cs pk_deserialize states headers blocks collect cfg finalized_epoch = Ok (gi, pre, post, slot) ->
  checkpoint_state X cs states (finalized pre) = Ok st ->
  sound_data X cs pk_deserialize headers (finalized pre) st [root (finalized post)] ->
  steady_chain cs states (finalized pre) st (gi_attestations gi) ->
  epoch (current_justified pre) + 1 + max_seed_lookahead cs < 2 ^ 64 -> 1 <= epoch (finalized pre) ->
  far_future_epoch cs = 2 ^ 64 - 1 -> sane_spec X cs -> sane_spec (on_platform X bits) cs -> shuffle_permutes X ->
  registry_fits X cs (st_validators (hs_state st)) (target_epochs (gi_attestations gi)) ->
  registry_fits (on_platform X bits) cs (st_validators (hs_state st)) (target_epochs (gi_attestations gi)) ->
  (exists r, into_reader (on_platform X bits) cs gi = Ok r) ->
  (* the bytes *)
  sane_codec C -> 32 <= bits <= 64 -> wf_input C bits gi -> N.of_nat (length (encode_input C gi)) < 2 ^ 32 ->
  guest_main (on_platform X bits) (decode_input C bits) cs cfg (encode_input_stdin (encode_input C gi)) = Ok (journal_encode pre post slot).
Proof.
  intros X bits cs pkd states headers blocks collect cfg fe gi pre post slot st Hco Hp Ec D Sc Hj Ht Hff S1 S2 Hsh F1 F2 Hr S Hb W Hl.
  rewrite C44_guest_input by exact Hl.
  eapply C55_guest_repeats_preflight; eauto.
  - intros e He. unfold target_epochs in He.
    assert (G : exists a, In a (gi_attestations gi) /\ epoch (ad_target (att_data a)) = e).
    { apply in_map_iff in He as (a & <- & Ha). eauto. }
    destruct G as (a & Ha & <-). pose proof (proj2 (wi_attestations _ _ _ W)) as A. rewrite Forall_forall in A. apply (wa_target _ _ (A a Ha)).
  - rewrite <- (app_nil_r (encode_input C gi)). now apply C63_round_trip.
Qed.
(** The build program and the guest: for every built epoch whose input fits the guest's platform, the
    guest reads the input file and commits the bytes of the journal file. *)
Theorem C63_continuous C X bits cs pk_deserialize cfg d nodes trusted steps :
  far_future_epoch cs = 2 ^ 64 - 1 -> sane_spec X cs -> sane_spec (on_platform X bits) cs -> shuffle_permutes X ->
  sane_codec C -> 32 <= bits <= 64 ->
  watches X bits cs pk_deserialize cfg nodes trusted steps ->
  exists bs e, build_loop true (map (view X cs pk_deserialize cfg) nodes) (epoch trusted) = (bs, Running e) /\
    map (fun b => (b_pre b, b_post b, b_slot b)) bs = steps /\
    forall b, In b bs -> wf_input C bits (b_input b) -> N.of_nat (length (encode_input C (b_input b))) < 2 ^ 32 ->
      exists input journal,
        build_disk (encode_input C) d bs (InputFile (b_epoch b)) = Some input /\
        build_disk (encode_input C) d bs (JournalFile (b_epoch b)) = Some journal /\
        guest_main (on_platform X bits) (decode_input C bits) cs cfg input = Ok journal.
Proof.
  intros Hff S1 S2 Hsh S Hb W.
  destruct (C58_continuous X bits cs pk_deserialize cfg (encode_input C) (decode_input C bits) d nodes trusted steps Hff S1 S2 Hsh W) as (bs & e & A & B & D).
  exists bs, e. split; [exact A|]. split; [exact B|]. intros b Hin Wf L. apply D; auto.
  rewrite <- (app_nil_r (encode_input C (b_input b))). now apply C63_round_trip.
Qed.

(** *** Examples *)
(** Keys of the toy chain are one byte long. *)
Definition n_codec : Codec :=
  mkCodec (fun k => k ++ repeat x00 95) (fun b => if bytes_eqb b (firstn 1 b ++ repeat x00 95) then Some (firstn 1 b) else None)
    (fun _ => true) 2048 131072 64.
Lemma n_sane : sane_codec n_codec.
Proof.
  constructor; try (vm_compute; reflexivity). intros b k _. cbn [pk_parse pk_raw n_codec].
  destruct (bytes_eqb b (firstn 1 b ++ repeat x00 95)) eqn:E; [|discriminate]. apply bytes_eqb_eq in E. intros G. injection G as <-. now symmetry.
Qed.
Ltac small := vm_compute; (reflexivity || discriminate).
Ltac sorted := repeat (constructor; [|repeat constructor]); constructor.
Lemma n_wf : wf_input n_codec 32 g_input.
Proof.
  assert (P : forall p, In p [g_block_proof; g_state_proof; g_validators_proof; g_slot_proof] -> wf_multiproof 32 p).
  { intros p Hp. repeat destruct Hp as [<-|Hp]; try contradiction; constructor; small. }
  constructor; cbn [g_input gi_beacon_block gi_beacon_state gi_active_validators gi_public_keys gi_patches gi_consensus_state gi_attestations gi_block_slot_proofs].
  - apply P. now left.
  - apply P. now right; left.
  - apply P. now right; right; left.
  - split; [small|]. repeat (apply Forall_cons; [split; small|]). apply Forall_nil.
  - split; [sorted|]. split; [small|]. unfold g_patches.
    repeat (apply Forall_cons; [split; [small|]; constructor; cbn [snd randao_mixes validator_exits]; (split; [sorted|split; [small|]]);
      repeat (apply Forall_cons; [split; small|]); apply Forall_nil|]). apply Forall_nil.
  - repeat split; small.
  - split; [small|]. unfold g_atts. repeat (apply Forall_cons; [constructor; repeat split; small|]). apply Forall_nil.
  - split; [small|]. apply Forall_cons; [|apply Forall_nil]. apply P. now right; right; right; left.
Qed.
Example C63_nonvacuous : sane_codec n_codec /\ wf_input n_codec 32 g_input /\
  decode_input n_codec 32 (encode_input n_codec g_input) = Some g_input /\
  decode_input n_codec 32 (firstn 1000 (encode_input n_codec g_input)) = None.
Proof.
  split; [exact n_sane|]. split; [exact n_wf|]. split.
  - rewrite <- (app_nil_r (encode_input n_codec g_input)). apply C63_round_trip; [exact n_sane|lia|exact n_wf].
  - apply C63_truncated; [exact n_sane|lia|exact n_wf|]. apply Nat.leb_le. vm_compute. reflexivity.
Qed.
(** Three bits that start in the middle of a word are read; a count beyond the words is refused. *)
Definition n_three (count : byte) : bytes :=
  e_bytes order_name ++ [x20; x1c; count; x00; x00; x00; x00; x00; x00; x00]
  ++ [x01; x00; x00; x00; x00; x00; x00; x00; x00; x00; x00; x50].
Example C63_accepted_nonvacuous : input_format n_codec 32 g_input (encode_input n_codec g_input) /\
  bit_vector 32 [true; false; true] (n_three x03) /\ (forall l, ~ bit_vector 32 l (n_three x05)).
Proof.
  split; [apply C63_written; [exact n_sane|lia|exact n_wf]|]. split.
  - destruct (proj1 (ex_bits 32 ltac:(lia) (n_three x03) [true; false; true] []) ltac:(vm_compute; reflexivity)) as (pre & E & H).
    rewrite app_nil_r in E. now rewrite E.
  - intros l H. assert (R : p_bits 32 (n_three x05) = Some (l, [])) by (apply ex_bits; [lia|]; exists (n_three x05); rewrite app_nil_r; auto).
    vm_compute in R. discriminate.
Qed.
(** The guest commits the predicted journal from the bytes. *)
Example C63_guest_nonvacuous : guest_main (on_platform g_X 32) (decode_input n_codec 32) toy_cs DEFAULT_CONFIG
  (encode_input_stdin (encode_input n_codec g_input)) = Ok (journal_encode g_trusted h_post 24).
Proof.
  eapply (C63_end_to_end n_codec g_X 32 toy_cs h_deserialize h_states h_headers r_blocks r_collect DEFAULT_CONFIG 9 g_input g_trusted h_post 24).
  - exact r_collect_ok.
  - exact r_prepared.
  - apply h_checkpoint.
  - exact h_sound.
  - apply r_steady. now left.
  - vm_compute. reflexivity.
  - vm_compute. discriminate.
  - reflexivity.
  - exact toy_sane.
  - exact toy_sane.
  - exact toy_permutes.
  - apply (r_fits 32). now left.
  - apply (r_fits 32). now left.
  - exists g_reader. rewrite into_reader_platform. exact g_accepted.
  - exact n_sane.
  - lia.
  - exact n_wf.
  - vm_compute. reflexivity.
Qed.
(** An exit of a validator whose index does not fit 32 bits: read by the host, rejected by the guest. *)
Definition n_wide : GuestInput :=
  mkGuestInput g_block_proof g_state_proof g_validators_proof [] [(13, mkStatePatch [] [(2 ^ 32, 16)])] g_trusted [] [].
Example C63_wide : decode_input n_codec 64 (encode_input n_codec n_wide) = Some n_wide /\
  decode_input n_codec 32 (encode_input n_codec n_wide) = None.
Proof. split; vm_compute; reflexivity. Qed.
(** The encoding is not canonical: other bytes, of the same length, are read as the same input. *)
Theorem C63_canonical_refuted : exists C b b' gi, sane_codec C /\ length b = length b' /\ b <> b' /\
  decode_input C 32 b = Some gi /\ decode_input C 32 b' = Some gi.
Proof.
  exists n_codec, (encode_input n_codec (mkGuestInput g_block_proof g_state_proof g_validators_proof [] g_patches g_trusted [] [])),
    (encode_input n_codec (mkGuestInput g_block_proof g_state_proof g_validators_proof [] (rev g_patches) g_trusted [] [])),
    (mkGuestInput g_block_proof g_state_proof g_validators_proof [] g_patches g_trusted [] []).
  split; [exact n_sane|]. split; [vm_compute; reflexivity|]. split; [|split; vm_compute; reflexivity].
  intros E. apply (f_equal (bytes_eqb (encode_input n_codec (mkGuestInput g_block_proof g_state_proof g_validators_proof [] g_patches g_trusted [] [])))) in E.
  vm_compute in E. discriminate.
Qed.

Print Assumptions C63_round_trip.
Print Assumptions C63_truncated.
Print Assumptions C63_prefix_free.
Print Assumptions C63_decoded.
Print Assumptions C63_accepted.
Print Assumptions C63_written.
Print Assumptions C63_unambiguous.
Print Assumptions C63_accepted_nonvacuous.
Print Assumptions C63_platforms.
Print Assumptions C63_guest_exact.
Print Assumptions C63_committed_journal.
Print Assumptions C63_cross_check.
Print Assumptions C63_end_to_end.
Print Assumptions C63_continuous.
Print Assumptions C63_canonical_refuted.
Print Assumptions C63_nonvacuous.
Print Assumptions C63_guest_nonvacuous.
