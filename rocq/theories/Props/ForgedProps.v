(** C76: what the guest's wrap-around of tree indices (C23) means for whoever relies on a journal. *)
From Coq Require Import List Arith NArith Bool Lia.
From Coq Require Import ZifyBool ZifyNat ZifyN.
From Coq.Init Require Import Byte.
From Verif.Model Require Import Base Types TreeHash Shuffle ConsensusState Multiproof Gindices Verify GuestReader Guest Cli CliRun HostChain HostStore HostInput InputCodec Networks.
From Verif.Spec Require FFG.
From Verif.Spec Require Import FFG Merkle MultiproofSpec Ssz Beacon HostSpec Pipeline HostInputSpec InputCodecSpec NetworkSpec ShuffleSpec Meaning Honest Moving NetworkRun Forged.
From Verif.Proof Require Import BaseLemmas MultiproofP ForgeryP InputCodecP InputSizeP GuestP MerkleP PreflightP PipelineP ForgedP.
From Verif.Props Require Import VerifyProps GuestToy HostToy CliProps ReplayProps InputCodecProps ClientProps NetworkProps ShuffleProps MeaningProps HonestProps MovingProps NetworkRunProps.
Import ListNotations.
Open Scope N_scope.
Notation length := List.length.

(** The trusted root matters only for the proof of the block's state root: if another proof shows the
    same value under another root, the program commits the same result about the other block. *)
Theorem C76_same_result : forall X cs cfg decode frame frame' gi mp r post slot,
  decode frame = Some gi -> decode frame' = Some (retold gi r mp) ->
  mp_verify (sha256 X) mp r = Ok tt -> mp_values mp = mp_values (gi_beacon_block gi) ->
  epoch (finalized (gi_consensus_state gi)) < epoch (current_justified (gi_consensus_state gi)) ->
  (exists g, into_reader X cs gi = Ok g /\ verify X cfg (guest_reader g) = Ok (post, slot)) ->
  entry X decode cs cfg frame = Ok (journal_encode (gi_consensus_state gi) post slot) /\
  entry X decode cs cfg frame' = Ok (journal_encode (about_block (gi_consensus_state gi) r) post slot).
Proof.
  intros X cs cfg decode frame frame' gi mp r post slot Hd Hd' Hm Hv Hlt (g & Hg & V).
  split; [eapply entry_of_verify; eauto|]. destruct (reader_about X cs gi r mp g Hg Hm Hv) as (g' & Hg' & Er).
  change (about_block (gi_consensus_state gi) r) with (gi_consensus_state (retold gi r mp)). eapply entry_of_verify; eauto. rewrite Er.
  apply verify_about; auto. cbn [guest_reader rd_consensus_state]. now apply into_reader_ok in Hg as (sr & si & vals & _ & _ & _ & _ & _ & _ & _ & _ & _ & _ & _ & _ & _ & -> & _).
Qed.

(** So whoever gets one chunk of 32 bytes of their choice under a trusted root can have the program commit,
    about that root, whatever it would commit about a state of their own making. *)
Theorem C76_forged_trust : forall X cs cfg, hash32 (sha256 X) -> forall fake_state_root, length fake_state_root = 32%nat ->
  exists chunk, length chunk = 32%nat /\
  forall T p, wf_tree T -> subtree T p = Some (MLeaf chunk) -> exists mp,
  forall decode frame frame' gi post slot,
    decode frame = Some gi -> mp_values (gi_beacon_block gi) = [(state_root_gindex, fake_state_root)] ->
    epoch (finalized (gi_consensus_state gi)) < epoch (current_justified (gi_consensus_state gi)) ->
    (exists g, into_reader X cs gi = Ok g /\ verify X cfg (guest_reader g) = Ok (post, slot)) ->
    decode frame' = Some (retold gi (mroot (sha256 X) T) mp) ->
    entry X decode cs cfg frame' = Ok (journal_encode (about_block (gi_consensus_state gi) (mroot (sha256 X) T)) post slot).
Proof.
  intros X cs cfg Hh v Hv. exists (forged_chunk (sha256 X) [(state_root_gindex, v)]). split.
  - apply mroot_length; auto. apply forged_wf. repeat constructor. exact Hv.
  - intros T p HT Hs. destruct (short_forgery (sha256 X) T p state_root_gindex v) as (mp & M1 & M2 & _); auto; [reflexivity|].
    exists mp. intros decode frame frame' gi post slot Hd Hb Hlt G Hd'. eapply (C76_same_result X cs cfg decode frame frame' gi mp); eauto. congruence.
Qed.

(** ** On the networks *)
Lemma same_length_retold C gi r mp : wf_input C 32 gi -> length r = 32%nat ->
  (length (encode_input C (retold gi r mp)) <= length (encode_input C gi) + length (e_multiproof mp))%nat.
Proof.
  intros W Hr. destruct (wi_consensus _ _ _ W) as (_ & _ & Hb). unfold encode_input, retold, e_state, e_checkpoint, about_block, e_b256, e_bytes.
  cbn [gi_consensus_state gi_beacon_block gi_beacon_state gi_active_validators gi_public_keys gi_patches gi_attestations gi_block_slot_proofs finalized current_justified epoch root].
  assert (B : StateFile.blen r = StateFile.blen (root (finalized (gi_consensus_state gi)))) by (unfold StateFile.blen; now rewrite Hr, Hb).
  rewrite B, !app_length, Hr, Hb. lia.
Qed.
Lemma value_length H mp r g v : mp_verify H mp r = Ok tt -> In (g, v) (mp_values mp) -> length v = 32%nat.
Proof.
  intros V I. apply mp_verify_iff in V as (t & E & _). apply mp_values_in in I. rewrite (mp_nodes_tree _ _ E) in I.
  apply in_map_iff in I as ([q c] & [= _ <-] & I). destruct E as (_ & W & _). now apply (proj1 (Forall_forall _ _) (proj1 (wf_tree_leaves t) W) (q, c)).
Qed.

(** On mainnet or Sepolia, with the published programs: take any made-up chain on which all votes are
    signed with keys of its own validators. There is a chunk such that, once it is anywhere under the
    root of a trusted block, the guest program commits that this block was followed by the made-up
    finalized checkpoint. No validator of the real chain has signed anything. *)
Theorem C76_made_up_chain : forall n X0 C pk_deserialize nd trusted s t slot,
  usize_bits X0 = 64 -> sane_codec C -> mainnet_limits C -> signatures_by_bytes X0 ->
  network_node n (with_swap_or_not X0 64) C pk_deserialize nd trusted s t slot ->
  exists chunk, length chunk = 32%nat /\
  forall T p, wf_tree T -> subtree T p = Some (MLeaf chunk) -> N.of_nat (length p) <= 10000 ->
  exists input, guest_for n (with_swap_or_not (on_platform X0 32) 64) (decode_input C 32) (encode_input_stdin input) =
    Ok (journal_encode (about_block s (mroot (sha256 X0) T)) t slot).
Proof.
  intros n X0 C pkd nd trusted s t slot U S Ml Sb Hn. set (X := with_swap_or_not X0 64) in *.
  destruct (step_input_room n X0 C pkd U S Ml Sb nd trusted s t slot Hn) as (gi & P & L & W & Cg & Q). fold X in Q.
  assert (Hh : hash32 (sha256 X0)). { destruct Hn as (e & us & ls & bs & st & sta & h & Hn). apply (sd_hash _ _ _ _ _ _ _ (ns_data _ _ _ _ _ _ _ _ _ _ _ _ _ _ _ _ Hn)). }
  destruct (Q 32 (or_introl eq_refl)) as (g & Hg & V).
  pose proof Hg as Hg'. apply into_reader_ok in Hg' as (sr & si & vals & G1 & G2 & _).
  assert (Hb : mp_values (gi_beacon_block gi) = [(state_root_gindex, sr)]).
  { unfold extract_beacon_block_multiproof in G2. apply bind_ok in G2 as ([c rest] & E1 & G2). apply (proj1 (next_assert_ok _ _ _ _)) in E1.
    apply bind_ok in G2 as (u & E2 & G2). injection G2 as <-. destruct rest; [exact E1|discriminate]. }
  assert (Hsr : length sr = 32%nat). { eapply value_length; [exact G1|]. rewrite Hb. now left. }
  exists (forged_chunk (sha256 X0) [(state_root_gindex, sr)]). split.
  { apply mroot_length; auto. apply forged_wf. repeat constructor. exact Hsr. }
  intros T p HT Hs Hp. destruct (short_forgery (sha256 X0) T p state_root_gindex sr) as (mp & M1 & M2 & M3 & M4 & M5 & M6); auto; [reflexivity|].
  set (r := mroot (sha256 X0) T) in *. assert (Hr : length r = 32%nat) by now apply mroot_length.
  assert (Hlt : epoch (finalized (gi_consensus_state gi)) < epoch (current_justified (gi_consensus_state gi))).
  { rewrite Cg. pose proof (step_advances n X0 C pkd U S Ml Sb nd trusted s t slot Hn) as [Ft _].
    destruct Hn as (e & us & ls & bs & st & sta & h & Hn). pose proof (nf_valid _ _ _ _ _ _ _ _ (ns_next _ _ _ _ _ _ _ _ _ _ _ _ _ _ _ _ Hn)) as [Vs|Vs]; [exact Vs|].
    exfalso. pose proof (proj1 (proj2 (ns_sizes _ _ _ _ _ _ _ _ _ _ _ _ _ _ _ _ Hn))) as Z. rewrite <- Ft, Vs in Z. cbn in Z. lia. }
  assert (Lm : N.of_nat (length (e_multiproof mp)) <= 400000).
  { change (StateFile.blen (e_multiproof mp) <= 400000). pose proof (proof_size mp (length p + 67)%nat). lia. }
  pose proof (same_length_retold C gi r mp W Hr) as Lr.
  assert (Lf : N.of_nat (length (encode_input C (retold gi r mp))) < 2 ^ 32).
  { change (2 ^ 32) with 4294967296 in *. change (2 ^ 20) with 1048576 in L. lia. }
  exists (encode_input C (retold gi r mp)). rewrite C65_same_parameters, C44_guest_input by exact Lf.
  rewrite C68_guest_platform by (rewrite ?U; lia). fold X. rewrite <- Cg.
  assert (Wr : wf_input C 32 (retold gi r mp)).
  { destruct W as [w1 w2 w3 w4 w5 (w6 & w7 & w8) w9 w10]. constructor; auto.
    - constructor; cbn [retold gi_beacon_block]; unfold short; rewrite ?M6; change (2 ^ 32) with 4294967296; change (2 ^ (32 - 3)) with 536870912; lia.
    - cbn [retold gi_consensus_state about_block current_justified finalized]. split; [exact w6|]. split; [exact w7|exact Hr]. }
  eapply (C76_same_result (on_platform X 32) (network_spec n) (config_for n) (decode_input C 32) (encode_input C gi) _ gi mp); eauto.
  - rewrite <- (app_nil_r (encode_input C gi)). apply C63_round_trip; auto. lia.
  - rewrite <- (app_nil_r (encode_input C (retold gi r mp))). apply C63_round_trip; auto. lia.
  - now rewrite M2, Hb.
Qed.

(** ** Non-vacuity *)
(** The made-up chain is that of C72; the chunk is in the body of some block. *)
Example C76_nonvacuous : exists chunk, length chunk = 32%nat /\
  let h := mkHeader (32 * u_T) 7 (toy_root 5) (toy_root 6) (MNode (MLeaf (toy_root 8)) (MLeaf chunk)) in
  exists input, guest_for Mainnet (with_swap_or_not (on_platform z_X0 32) 64) (decode_input n_codec 32) (encode_input_stdin input) =
    Ok (journal_encode (about_block (u_at (u_T + 2)) (mroot g_hash (header_tree g_hash h))) (u_at (u_T + 3)) (32 * (u_T + 1))).
Proof.
  destruct (C76_made_up_chain Mainnet z_X0 n_codec h_deserialize (u_node (u_T + 1)) (u_cp u_T) (u_at (u_T + 2)) (u_at (u_T + 3)) (32 * (u_T + 1))
    eq_refl n_sane u_limits z_bytes (u_stepA (u_T + 1))) as (chunk & L & H).
  exists chunk. split; [exact L|]. intros h. apply (H (header_tree g_hash h) [true; false; false; true]).
  - cbn [h]. repeat split; try reflexivity. exact L.
  - reflexivity.
  - vm_compute. discriminate.
Qed.

(** A case computed with all its parts. The real block commits to a state with validators of other keys;
    its body holds the chunk, say as graffiti. The votes are those of the eight made-up validators. *)
Definition f_vs : list Validator := map (fun i => mkValidator (g_key (i + 20) ++ repeat x00 47) (toy_root i) 32000000000 false 0 0 g_far g_far) [0; 1; 2; 3; 4; 5; 6; 7].
Definition f_state : State :=
  let s := w_state Mainnet in
  mkState (st_fulu s) (st_genesis_validators_root s) (st_slot s) (st_fork s) f_vs (st_finalized s) (st_earliest_exit_epoch s) (st_earliest_consolidation_epoch s) (st_other s).
Definition f_chunk : bytes := Eval vm_compute in forged_chunk g_hash [(state_root_gindex, w_state_root Mainnet)].
Definition f_header : Header :=
  mkHeader (32 * w_trust Mainnet) 3 (toy_root 17) (mroot g_hash (state_tree g_hash f_state)) (MNode (MLeaf f_chunk) (MLeaf (toy_root 8))).
Definition f_root : Root := Eval vm_compute in mroot g_hash (header_tree g_hash f_header).
Definition f_input : GuestInput :=
  retold (y_input Mainnet (y_order Mainnet) [0; 1; 2; 3; 4; 5; 6]) f_root
    (k_mp (graft g_hash (header_tree g_hash f_header) [true; false; false; false] (forged [(state_root_gindex, w_state_root Mainnet)]))).
Example C76_concrete :
  mroot g_hash (header_tree g_hash f_header) = f_root /\ wf_header f_header /\ length f_chunk = 32%nat /\
  (forall v, In v f_vs -> ~ In v w_vs) /\
  guest_for Mainnet y_X (decode_input n_codec 32) (encode_input_stdin (encode_input n_codec f_input)) =
    Ok (journal_encode (about_block (w_pre Mainnet) f_root) (w_post Mainnet) (32 * w_trust Mainnet + 32)).
Proof.
  split; [vm_compute; reflexivity|]. split; [repeat split; vm_compute; reflexivity|]. split; [reflexivity|]. split; [|run].
  intros v H. repeat destruct H as [<-|H]; try contradiction; vm_compute; intuition discriminate.
Qed.

Print Assumptions C76_same_result.
Print Assumptions C76_forged_trust.
Print Assumptions C76_made_up_chain.
Print Assumptions C76_nonvacuous.
Print Assumptions C76_concrete.
