(** C85: long runs of the command line tool against a node that answers in JSON. *)
From Coq Require Import String List Arith NArith Bool Lia ZifyBool ZifyNat ZifyN.
From Coq.Init Require Import Byte.
From Verif.Model Require Import Base Types Shuffle ConsensusState Verify GuestReader Guest Cli CliRun HostChain HostStore HostInput BeaconClient StateFile Networks.
From Verif.Model Require Import InputCodec.
From Verif.Spec Require FFG.
From Verif.Spec Require Import Merkle Ssz Beacon GuestSpec HostSpec Pipeline HostInputSpec CliSpec InputCodecSpec NetworkSpec ShuffleSpec Honest Moving NetworkRun StateJsonSpec HashTreeRoot BlockSpec JsonRun.
From Verif.Model Require Import StateJson StateView BlockJson.
From Verif.Proof Require Import BaseLemmas MerkleP BeaconP PipelineP.
From Verif.Props Require Import VerifyProps GuestToy HostToy HostInputProps InputCodecProps HonestProps NetworkRunProps StateJsonProps StateViewProps BlockJsonProps JsonToy JsonNodeToy.
Import ListNotations.
Open Scope list_scope.
Open Scope N_scope.

Section Runs.
  Variables (n : Network) (X0 : Externals) (C : Codec) (pkd : bytes -> option PublicKey) (endpoint : Url) (fuel : nat).
  Let X := with_swap_or_not X0 64.
  Let cs := network_spec n.
  Hypothesis U : usize_bits X0 = 64.
  Hypothesis S : sane_codec C.
  Hypothesis Ml : mainnet_limits C.
  Hypothesis Sb : signatures_by_bytes X0.

  Definition node_of (server : Url -> Reply json) : Node := json_node (sha256 X) C endpoint server fuel.

  Lemma votes_in l ls bs : In l (chain_votes ls bs) -> exists b, In b bs /\ In l (bl_attestations b).
  Proof.
    unfold chain_votes, votes_for, included. intros H. apply in_flat_map in H as (k & _ & H). apply filter_In in H as [H _]. now apply in_flat_map in H.
  Qed.
  Lemma blocks_in ch slots bs b : blocks_at ch slots bs -> In b bs -> exists s, ch_block ch s = Ok (Some b).
  Proof.
    intros (obs & F & ->) H. apply in_flat_map in H as (ob & Ho & H). destruct ob as [b'|]; [|destruct H]. destruct H as [->|[]].
    induction F as [|s ob slots obs E F IH]; [destruct Ho|]. destruct Ho as [->|Ho]; eauto.
  Qed.
  Lemma spe : slots_per_epoch cs = 32. Proof. unfold cs. now destruct n. Qed.

  Theorem C85_json_step server trusted s t slot e us ls bs st sta h b :
    json_step n X C pkd endpoint server fuel trusted s t slot e us ls bs st sta h b ->
    network_step n X C pkd (node_of server) trusted s t slot e us ls bs st sta h.
  Proof.
    intros [J1 J2 J3 J4 J5 (T1 & T2 & T3 & T4 & T5) (E1 & E2 & E3 & E4) K F A M Z].
    destruct (C85_answers_are_well_typed (sha256 X) C endpoint server fuel E1 S Ml) as [W1 W2 W3 W4 W5].
    assert (exists s0, nd_states (node_of server) s0 = Ok st) as (s0 & Es0).
    { unfold checkpoint_state, state_at_checkpoint in T1. apply bind_ok in T1 as (s1 & G1 & G2). apply bind_ok in G2 as (u & G2 & G3). injection G3 as ->.
      unfold state_at_epoch_boundary, state_at_epoch in G1. apply bind_ok in G1 as (s2 & G1 & G4). destruct (_ =? _); [injection G4 as ->|]; eauto. }
    destruct (W1 _ _ Es0) as (Wh & Wm1 & Wm2 & Wr & Ws). specialize (Ws T2).
    constructor; auto.
    - split; [exact T1|]. split; [exact T2|]. unfold node_of. rewrite T3. do 2 f_equal. apply (header_determined (sha256 X)); auto.
      + now apply W3 in T3.
      + unfold boundary_block, wf_header. cbn [hd_slot hd_proposer_index hd_parent_root hd_state_root hd_body]. destruct Wh as (? & ? & ? & ? & ?). repeat split; auto. apply mroot_length; auto. now apply state_tree_wf.
      + cbn [json_node nd_blocks] in T3. apply opt_map_ok in T3 as (tb & _ & ->). eexists. reflexivity.
      + cbn [node_of json_node nd_states] in Es0. destruct (ask_state endpoint server (AtSlot s0)); cbn in Es0; try discriminate. injection Es0 as <-. eexists. reflexivity.
      + rewrite T4. unfold checkpoint_state, state_at_checkpoint in T1. apply bind_ok in T1 as (s1 & G1 & G2). apply bind_ok in G2 as (u & G2 & G3). injection G3 as ->.
        unfold ensure in G2. destruct (bytes_eqb (root trusted) (boundary_root X st)) eqn:Eb; [|discriminate]. now apply bytes_eqb_eq in Eb.
    - constructor; auto; [fold cs; now rewrite spe|]. intros r h' _ Hr. now apply W2 in Hr.
    - split; [constructor; auto|].
      + intros e0 st0 m _ Es Hm. apply W1 in Es as (_ & _ & Es & _). rewrite Forall_forall in Es. auto.
      + intros e0 st0 v _ Es Hv. apply W1 in Es as (_ & _ & _ & (Es & _) & _). rewrite Forall_forall in Es. apply Es in Hv. unfold wf_validator in Hv. unfold u64. tauto.
      + apply Forall_forall. intros a Ha. apply votes_in in Ha as (bk & Hb & Ha). destruct J2 as [(lo & hi & slots & _ & _ & _ & Hbs) _].
        destruct (blocks_in _ _ _ _ Hbs Hb) as (sl & Hsl). apply W5 in Hsl. rewrite Forall_forall in Hsl. auto.
      + pose proof (nf_start _ _ _ _ _ _ _ _ J1) as Hs. unfold state_at in Hs. apply W4 in Hs. pose proof (nf_trusted _ _ _ _ _ _ _ _ J1) as Ht. rewrite Ht in Hs. exact Hs.
  Qed.
  Lemma json_network server trusted s t slot : json_next n X C pkd endpoint server fuel trusted s t slot -> network_node n X C pkd (node_of server) trusted s t slot.
  Proof. intros (e & us & ls & bs & st & sta & h & b & H). exists e, us, ls, bs, st, sta, h. now apply C85_json_step with b. Qed.
  Lemma json_finalized server f : ask_finality endpoint server Head = Ok f -> nd_finalized (node_of server) = Ok (epoch (f_finalized f)).
  Proof. intros H. cbn [node_of json_node nd_finalized]. now rewrite H. Qed.
  Lemma json_watching servers trusted steps : json_watch n X C pkd endpoint fuel servers trusted steps -> network_watch n X C pkd (map node_of servers) trusted steps.
  Proof.
    intros W. induction W as [trusted|server more trusted f steps Hf Hle Hmax W IH|server more trusted f s t slot steps Hf Hlt Hn W IH]; cbn [map].
    - constructor.
    - eapply nw_wait; [exact (json_finalized _ _ Hf)| | |]; eauto.
    - eapply nw_step; [exact (json_finalized _ _ Hf)| | |]; eauto using json_network.
  Qed.
  (** [build-input] against such a node, whose answers may change between the looks: it does not stop, every step of
      finality gets its files, and the guest accepts every input with the journal that was written. *)
  Theorem C85_build_input d servers trusted steps : json_watch n X C pkd endpoint fuel servers trusted steps ->
    exists bs e, build_loop true (map (fun server => CliRun.view X cs pkd (config_for n) (node_of server)) servers) (epoch trusted) = (bs, Running e) /\
      map (fun b => (b_pre b, b_post b, b_slot b)) bs = steps /\
      forall b, In b bs -> exists input journal,
        build_disk (encode_input C) d bs (InputFile (b_epoch b)) = Some input /\
        build_disk (encode_input C) d bs (JournalFile (b_epoch b)) = Some journal /\
        guest_for n (with_swap_or_not (on_platform X0 32) 64) (decode_input C 32) input = Ok journal.
  Proof. intros W. apply json_watching in W. rewrite <- map_map. now apply C72_build_input. Qed.
  Lemma json_states server trusted s t slot : json_next n X C pkd endpoint server fuel trusted s t slot -> FFG.wf_state s /\ FFG.wf_state t.
  Proof.
    intros (e & us & ls & bs & st & sta & h & b & [J1 _ _ _ _ _ (E1 & _) _ _ _ _ _]).
    destruct (C85_answers_are_well_typed (sha256 X) C endpoint server fuel E1 S Ml) as [_ _ _ W4 _].
    split; [exact (W4 _ _ (nf_start _ _ _ _ _ _ _ _ J1))|].
    pose proof (nf_states _ _ _ _ _ _ _ _ J1) as Hs. revert Hs. generalize (e + 1). clear - W4. induction us as [|u us IH]; cbn [app states_from]; intros e' [Hs Hr]; [exact (W4 _ _ Hs)|eauto].
  Qed.
  (** [sync], on the host alone or also in the zkVM: every step is verified and becomes the next trusted state. *)
  Theorem C85_sync r0vm servers st ts : json_follow n X C pkd endpoint fuel servers st ts ->
    let executor b := match guest_for n (with_swap_or_not (on_platform X0 32) 64) (decode_input C 32) (encode_input_stdin b) with Ok j => Some j | _ => None end in
    exists e, sync_loop (encode_input C) (run_verify X (decode_input C 64) executor cs (config_for n) r0vm)
      (map (fun server => CliRun.view X cs pkd (config_for n) (node_of server)) servers) st = (ok_log st ts, Running e).
  Proof.
    intros F executor. rewrite <- map_map. apply C72_sync; auto. induction F as [st|server more st s t slot ts H F IH]; cbn [map]; [constructor|].
    destruct (json_states _ _ _ _ _ H) as [W1 W2]. eapply nf_step; eauto using json_network.
  Qed.
End Runs.

(** ** Non-vacuity *)
(** A node with states of eight or nine validators (and 65536 RANDAO mixes) and blocks, all in JSON: the trusted
    checkpoint is the root of its block, which is the root of its state. *)
Example C85_step_nonvacuous : json_next Mainnet (with_swap_or_not z_X0 64) n_codec h_deserialize j_end (j_server (u_T + 1)) 5
  (j_cp u_T) (j_at (u_T + 2)) (j_at (u_T + 3)) (32 * (u_T + 1)).
Proof. apply j_stepA. Qed.
(** Four looks, two of them too early. *)
Example C85_build_input_nonvacuous d : exists bs e,
  build_loop true (map (fun server => CliRun.view z_X (network_spec Mainnet) h_deserialize (config_for Mainnet) (json_node g_hash n_codec j_end server 5)) j_servers) u_T = (bs, Running e) /\
  map (fun b => (b_pre b, b_post b, b_slot b)) bs = j_steps /\
  forall b, In b bs -> exists input journal,
    build_disk (encode_input n_codec) d bs (InputFile (b_epoch b)) = Some input /\
    build_disk (encode_input n_codec) d bs (JournalFile (b_epoch b)) = Some journal /\
    guest_for Mainnet (with_swap_or_not (on_platform z_X0 32) 64) (decode_input n_codec 32) input = Ok journal.
Proof.
  pose proof (C85_build_input Mainnet z_X0 n_codec h_deserialize j_end 5 eq_refl n_sane u_limits z_bytes d j_servers (j_cp u_T) j_steps j_watch) as H.
  change (epoch (j_cp u_T)) with u_T in H. exact H.
Qed.
Example C85_sync_nonvacuous r0vm :
  let executor b := match guest_for Mainnet (with_swap_or_not (on_platform z_X0 32) 64) (decode_input n_codec 32) (encode_input_stdin b) with Ok j => Some j | _ => None end in
  exists e, sync_loop (encode_input n_codec) (run_verify z_X (decode_input n_codec 64) executor (network_spec Mainnet) (config_for Mainnet) r0vm)
    (map (fun server => CliRun.view z_X (network_spec Mainnet) h_deserialize (config_for Mainnet) (json_node g_hash n_codec j_end server 5)) [j_server (u_T + 1); j_server (u_T + 2)]) (j_at (u_T + 2))
  = ([mkSyncLine (j_at (u_T + 2)) (j_at (u_T + 3)) SyncOk; mkSyncLine (j_at (u_T + 3)) (j_at (u_T + 4)) SyncOk], Running e).
Proof.
  intros executor. exact (C85_sync Mainnet z_X0 n_codec h_deserialize j_end 5 eq_refl n_sane u_limits z_bytes r0vm _ _ _ j_follow).
Qed.
(** The block that the node answers for the trusted slot is the one the trusted state names. *)
Example C85_block_of_checkpoint_nonvacuous : exists states r j st b,
  checkpoint_state z_X (network_spec Mainnet) states (j_cp u_T) = Ok (StateView.view (sha256 z_X) st) /\ read_state r = Ok st /\ hs_supported (StateView.view (sha256 z_X) st) = true /\
  block_of_json j = Some b /\ hash_tree_root (sha256 z_X) (BeaconBlock (tb_version b)) (tb_value b) = root (j_cp u_T) /\
  no_collision (sha256 z_X) (header_tree (sha256 z_X) (block_header (sha256 z_X) b)) (header_tree (sha256 z_X) (boundary_block z_X (StateView.view (sha256 z_X) st))).
Proof.
  exists (nd_states (j_node 0)), (Replied 200 (j_answer u_T)), (x_answer VElectra (j_block_value (32 * u_T) []) []), (j_state u_T), (mkTBlock VElectra (j_block_value (32 * u_T) [])).
  change (sha256 z_X) with g_hash. change (StateView.view g_hash (j_state u_T)) with (j_hstate u_T).
  assert (He : u_T + 2 = u_T + 2 \/ u_T + 2 = u_T + 3) by now left. assert (E2 : u_T + 2 - 2 = u_T) by (unfold u_T; lia).
  split; [rewrite <- E2 at 1; rewrite (j_checkpoint 0 _ He); now rewrite E2|]. split; [apply j_read; right; now left|]. split; [apply j_supported|]. split; [apply j_block_is_read|].
  split; [rewrite <- (C85_block_root g_hash _ _ j_block_is_read), j_block_header; generalize (j_header_root _ He); now rewrite E2|].
  rewrite j_block_header. generalize (j_boundary _ He), (j_no_collision _ He). rewrite E2. now intros ->.
Qed.

Print Assumptions C85_json_step.
Print Assumptions C85_build_input.
Print Assumptions C85_sync.
Print Assumptions C85_step_nonvacuous.
Print Assumptions C85_build_input_nonvacuous.
Print Assumptions C85_sync_nonvacuous.
Print Assumptions C85_block_of_checkpoint_nonvacuous.
