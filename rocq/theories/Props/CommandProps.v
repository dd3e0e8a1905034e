(** C88: the commands of the tool as a whole. *)
From Coq Require Import List NArith Bool Lia.
From Coq.Init Require Import Byte.
From Verif.Model Require Import Base Types TreeHash Shuffle ConsensusState Verify GuestReader Guest Cli CliRun HostChain HostStore HostInput InputCodec Networks Command.
From Verif.Spec Require FFG.
From Verif.Spec Require Import Merkle Ssz Beacon VerifySpec HostSpec HostInputSpec CliSpec InputCodecSpec NetworkSpec ShuffleSpec Honest NetworkRun PlatformSpec CommandSpec.
From Verif.Proof Require Import BaseLemmas VerifyP GuestP HostGuestP HostChainP.
From Verif.Props Require Import CliProps ReplayProps PipelineProps CliRunProps InputCodecProps NetworkProps ShuffleProps HonestProps NetworkRunProps VerifyProps MeaningProps PlatformProps HostToy.
Import ListNotations.
Open Scope N_scope.
Notation length := List.length.

(** ** What each command does and does not do *)
(** [verify] and [sync] write no input and no journal; only [sync] writes a log, and only if asked to; only
    [verify] reports a post-state, and it does so exactly when it ends well. [verify] ends with the first
    round of requests; [sync] never ends well, and neither does [build-input --continuous]; without
    [--continuous] it ends well exactly when it has built the input for the epoch it was given. *)
Theorem C88_effects X C w pkd zk n cmd nodes : let r := zkasper X C w pkd zk n cmd nodes in
  match cmd with
  | Verify _ _ => ran_built r = [] /\ ran_log r = None /\ (ran_end r = Success <-> ran_post r <> None) /\ (nodes <> [] -> ran_end r <> Ongoing)
  | Sync _ _ log => ran_built r = [] /\ ran_post r = None /\ (ran_log r <> None <-> log = true) /\ ran_end r <> Success
  | BuildInput e continuous => ran_log r = None /\ ran_post r = None /\
      (ran_end r = Success <-> continuous = false /\ exists b, ran_built r = [b] /\ b_epoch b = e) /\
      (continuous = false -> ran_end r <> Success -> ran_built r = [])
  end.
Proof.
  destruct cmd as [mode e|mode slot log|e continuous]; cbn [zkasper]; cbv zeta.
  - destruct nodes as [|nd r]; [cbn; repeat split; try discriminate; tauto|].
    destruct (vw_prepare _ e) as [[[[gi pre] post] s]| |]; [|cbn; repeat split; try discriminate; tauto..].
    destruct (run_verify _ _ _ _ _ _ _ _) as [p| |]; cbn; repeat split; try discriminate; tauto.
  - destruct nodes as [|nd r]; [destruct log; cbn; repeat split; try discriminate; tauto|].
    destruct (ch_state _ slot) as [st| |]; [|destruct log; cbn; repeat split; try discriminate; tauto..].
    set (run := run_verify _ _ _ _ _ _). set (vs := map _ r).
    assert (H : forall vs st, snd (sync_loop (encode_input C) run vs st) <> Done).
    { clear. induction vs as [|v vs IH]; intros st; cbn [sync_loop snd]; [discriminate|].
      destruct (vw_prepare v _) as [[[[gi pre] ex] s]| |]; [|discriminate..].
      specialize (IH ex). destruct (sync_loop _ _ vs ex) as [ls s']. destruct (run pre _); [exact IH|exact IH|discriminate]. }
    specialize (H vs st). destruct (sync_loop _ _ vs st) as [ls s]. cbn [snd] in H.
    cbn [ran_built ran_post ran_log ran_end]. split; [reflexivity|]. split; [reflexivity|]. split; [destruct log; split; congruence|].
    destruct s; [discriminate|congruence|discriminate].
  - set (vs := map _ nodes).
    assert (H : let r := build_loop continuous vs e in (snd r = Done <-> continuous = false /\ exists b, fst r = [b] /\ b_epoch b = e) /\
      (continuous = false -> snd r <> Done -> fst r = [])).
    { clearbody vs. clear. revert e. induction vs as [|v vs IH]; intros e; cbn [build_loop].
      { cbn. split; [|reflexivity]. split; [discriminate|intros (_ & b & E & _); discriminate]. }
      destruct (vw_finalized v) as [fin| |]; [|cbn; split; [split; [discriminate|intros (_ & b & E & _); discriminate]|reflexivity]..].
      destruct (fin <? _); [apply IH|].
      destruct (vw_prepare v e) as [[[[gi pre] ex] s]| |]; [|cbn; split; [split; [discriminate|intros (_ & b & E & _); discriminate]|reflexivity]..].
      destruct continuous.
      - destruct (IH (epoch (finalized ex))) as [[I1 _] _]. destruct (build_loop _ vs _) as [bs st']. cbn in *. split; [|discriminate].
        split; [intros E; destruct (I1 E); discriminate|intros [E _]; discriminate].
      - cbn. split; [|congruence]. split; [|reflexivity]. intros _. split; [reflexivity|]. eexists. split; reflexivity. }
    cbv zeta in H. destruct (build_loop continuous vs e) as [bs s]. cbn [fst snd ran_log ran_post ran_end ran_built] in *. destruct H as [H1 H2].
    split; [reflexivity|]. split; [reflexivity|]. split.
    + rewrite <- H1. destruct s; cbn [ending_of]; split; congruence.
    + intros Hc Hs. apply H2; [exact Hc|]. intros ->. now apply Hs.
Qed.

(** ** The execution mode *)
(** [--mode ssz] is the native mode under another name, whatever the zkVM does. *)
Theorem C88_ssz_is_native X C w pkd zk n nodes :
  (forall e, zkasper X C w pkd zk n (Verify Ssz e) nodes = zkasper X C w pkd zk n (Verify Native e) nodes) /\
  (forall slot log, zkasper X C w pkd zk n (Sync Ssz slot log) nodes = zkasper X C w pkd zk n (Sync Native slot log) nodes).
Proof. split; reflexivity. Qed.
(** With any zkVM, even a wrong one: if [verify --mode r0vm] ends well, then so does the native mode, with
    the same state, and the zkVM has run the program of this very network and committed a pre-state that
    was finalized at the given epoch and the reported post-state. *)
Theorem C88_r0vm_only_refuses X C w pkd zk n e nd more post :
  ran_post (zkasper X C w pkd zk n (Verify R0vm e) (nd :: more)) = Some post ->
  zkasper X C w pkd zk n (Verify Native e) (nd :: more) = mkRun [] None (Some post) Success /\
  exists input journal pre, zk n (encode_input_stdin input) = Some journal /\
    abi_decode (firstn 128 journal) = Ok pre /\ abi_decode (skipn 128 journal) = Ok post /\ epoch (finalized pre) = e.
Proof.
  cbn [zkasper in_zkvm]. destruct (vw_prepare _ e) as [[[[gi pre] ex] s]| |] eqn:P; [|discriminate..].
  destruct (run_verify _ _ _ _ _ true _ _) as [p| |] eqn:R; [|discriminate..]. cbn [ran_post]. intros [= ->].
  apply C51_accepted_journal in R as (gi' & r & slot & journal & D & I & V & J & A1 & A2). split.
  - unfold run_verify. rewrite D. cbn [ok_or bind]. rewrite I. cbn [map_err bind]. rewrite V. reflexivity.
  - exists (encode_input C gi), journal, pre. repeat split; auto. now apply prepare_advances in P as (P & _).
Qed.

Section Faithful.
  Variables (X0 : Externals) (C : Codec) (pkd : bytes -> option bytes) (n : Network).
  Hypothesis S : sane_codec C.
  Let tool := zkasper (host_side X0) C 64 pkd (faithful X0 C) n.
  Let run mode := run_verify (host_side X0) (decode_input C 64) (execute_guest_program (faithful X0 C) n) (network_spec n) (config_for n) (in_zkvm mode).
  Let see := view (host_side X0) (network_spec n) pkd (config_for n).

  Lemma run_modes nd e gi pre post slot mode : inputs_fit n (host_side X0) C pkd nd -> vw_prepare (see nd) e = Ok (gi, pre, post, slot) ->
    run mode pre (encode_input C gi) = run Native pre (encode_input C gi).
  Proof.
    intros F P. pose proof P as Q. apply prepare_advances in Q as (_ & _ & <-). destruct (F _ _ _ _ _ P) as (D & L & K).
    destruct mode; [reflexivity|reflexivity|]. exact (C87_r0vm_is_native n C X0 _ gi S D K L).
  Qed.
  Lemma sync_modes mode : forall nodes st, Forall (inputs_fit n (host_side X0) C pkd) nodes ->
    sync_loop (encode_input C) (run mode) (map see nodes) st = sync_loop (encode_input C) (run Native) (map see nodes) st.
  Proof.
    induction nodes as [|nd nodes IH]; intros st F; [reflexivity|]. apply Forall_cons_iff in F as [F1 F2]. cbn [map sync_loop].
    destruct (vw_prepare (see nd) _) as [[[[gi pre] ex] s]| |] eqn:P; [|reflexivity..].
    rewrite (run_modes nd _ gi pre ex s mode F1 P). destruct (run Native pre _); [now rewrite IH|now rewrite IH|reflexivity].
  Qed.
  (** With a zkVM that runs the guest as it is, the mode makes no difference at all, as long as the inputs fit
      the guest: same reports, same log, same ending. *)
  Theorem C88_mode_does_not_matter nodes mode : Forall (inputs_fit n (host_side X0) C pkd) nodes ->
    (forall e, tool (Verify mode e) nodes = tool (Verify Native e) nodes) /\
    (forall slot log, tool (Sync mode slot log) nodes = tool (Sync Native slot log) nodes).
  Proof.
    intros F. split.
    - intros e. unfold tool. cbn [zkasper]. destruct nodes as [|nd r]; [reflexivity|]. apply Forall_cons_iff in F as [F _].
      fold see. destruct (vw_prepare (see nd) e) as [[[[gi pre] ex] s]| |] eqn:P; [|reflexivity..].
      pose proof (run_modes nd e gi pre ex s mode F P) as R. unfold run in R. now rewrite R.
    - intros slot log. unfold tool. cbn [zkasper]. destruct nodes as [|nd r]; [reflexivity|]. apply Forall_cons_iff in F as [_ F].
      destruct (ch_state _ slot) as [st| |]; [|reflexivity..]. pose proof (sync_modes mode r st F) as R. unfold run, see in R. now rewrite R.
  Qed.

  (** ** What a good ending means *)
  Lemma run_provable nd e gi pre ex slot mode post : inputs_fit n (host_side X0) C pkd nd -> vw_prepare (see nd) e = Ok (gi, pre, ex, slot) ->
    run mode pre (encode_input C gi) = Ok post -> provable n X0 C pre post.
  Proof.
    intros F P R. rewrite (run_modes nd e gi pre ex slot mode F P) in R. pose proof P as Q. apply prepare_advances in Q as (_ & _ & <-).
    destruct (F _ _ _ _ _ P) as (D & L & K). unfold run, run_verify in R.
    rewrite (C63_platforms C 32 64 _ gi ltac:(discriminate) D) in R. cbn [ok_or bind in_zkvm] in R.
    apply bind_ok in R as (r & I & R). apply (proj1 (map_err_ok _ _ _)) in I.
    apply bind_ok in R as ([p sl] & V & R). apply (proj1 (map_err_ok _ _ _)) in V. injection R as ->.
    exists (encode_input_stdin (encode_input C gi)), sl. rewrite C65_same_parameters, C44_guest_input by exact L.
    rewrite (C87_guest n C X0 _ gi S D K). eapply entry_of_verify; [|exact I|exact V].
    exact (C63_platforms C 32 64 _ gi ltac:(discriminate) D).
  Qed.
  (** If [verify] ends well in any mode, then the step it reports can be proved: the network's guest program
      commits it, from a state finalized at the given epoch to the reported one, on some input. *)
  Theorem C88_verified_is_provable mode e nd more post : inputs_fit n (host_side X0) C pkd nd ->
    ran_post (tool (Verify mode e) (nd :: more)) = Some post ->
    exists pre, epoch (finalized pre) = e /\ provable n X0 C pre post.
  Proof.
    intros F. unfold tool. cbn [zkasper]. fold see. destruct (vw_prepare (see nd) e) as [[[[gi pre] ex] s]| |] eqn:P; [|discriminate..].
    fold (run mode). destruct (run mode pre (encode_input C gi)) as [p| |] eqn:R; [|discriminate..]. cbn [ran_post]. intros [= ->].
    exists pre. split; [now apply prepare_advances in P|]. eapply run_provable; eauto.
  Qed.
  (** Each line of the log starts where the one before ended, the first one at the state the node gave for the
      start slot, and goes up in the finalized epoch. Where the log says Ok, the state at the end of the line
      can be proved, from a state with the finalized epoch at the start of the line. *)
  Theorem C88_log mode slot nd later lines : Forall (inputs_fit n (host_side X0) C pkd) later ->
    ran_log (tool (Sync mode slot true) (nd :: later)) = Some lines -> lines <> [] ->
    exists st, ch_state (nd_chain nd) slot = Ok st /\ log_from st lines /\ (length lines <= length later)%nat /\
      forall l, In l lines -> epoch (finalized (sl_from l)) < epoch (finalized (sl_to l)) /\
        (sl_msg l = SyncOk -> exists pre, epoch (finalized pre) = epoch (finalized (sl_from l)) /\ provable n X0 C pre (sl_to l)).
  Proof.
    intros F. unfold tool. cbn [zkasper]. destruct (ch_state _ slot) as [st| |]; [|cbn [ran_log]; congruence..].
    fold see. fold (run mode). intros E Hl. exists st. split; [reflexivity|].
    assert (G : forall later st, Forall (inputs_fit n (host_side X0) C pkd) later -> let lines := fst (sync_loop (encode_input C) (run mode) (map see later) st) in
      log_from st lines /\ (length lines <= length later)%nat /\ forall l, In l lines -> epoch (finalized (sl_from l)) < epoch (finalized (sl_to l)) /\
        (sl_msg l = SyncOk -> exists pre, epoch (finalized pre) = epoch (finalized (sl_from l)) /\ provable n X0 C pre (sl_to l))).
    { clear - S. induction later as [|v later IH]; intros st F; cbn [map sync_loop fst]; [split; [exact I|split; [cbn; lia|intros l []]]|].
      apply Forall_cons_iff in F as [F1 F2].
      destruct (vw_prepare (see v) _) as [[[[gi pre] ex] s]| |] eqn:P; [|split; [exact I|split; [cbn; lia|intros l []]]..].
      specialize (IH ex F2). cbv zeta in IH. destruct (sync_loop _ _ (map see later) ex) as [ls s']. cbn [fst] in IH. destruct IH as (I1 & I2 & I3).
      destruct (prepare_advances _ _ _ _ _ _ _ _ _ _ P) as (A1 & A2 & _).
      destruct (run mode pre (encode_input C gi)) as [got|er|] eqn:R; [| |split; [exact I|split; [cbn; lia|intros l []]]].
      - cbn [fst log_from sl_from sl_to length]. split; [split; [reflexivity|exact I1]|]. split; [lia|]. intros l [<-|Hin]; [|now apply I3].
        cbn [sl_from sl_to sl_msg]. split; [exact A2|]. destruct (state_eqb got ex) eqn:Eq; [|discriminate]. intros _. apply state_eqb_eq in Eq as ->.
        exists pre. split; [exact A1|]. eapply run_provable; eauto.
      - cbn [fst log_from sl_from sl_to length]. split; [split; [reflexivity|exact I1]|]. split; [lia|]. intros l [<-|Hin]; [|now apply I3].
        cbn [sl_from sl_to sl_msg]. split; [exact A2|discriminate]. }
    specialize (G later st F). cbv zeta in G. destruct (sync_loop _ _ (map see later) st) as [ls s]. cbn [ran_log] in E. injection E as <-. exact G.
  Qed.
End Faithful.

(** ** Honest networks *)
(** What makes inputs fit, in terms of the node's data (Spec/HostInputSpec.v). *)
Theorem C88_inputs_fit n X C pkd nd : sane_spec X (network_spec n) -> sane_codec C ->
  (forall e gi pre post slot, vw_prepare (view X (network_spec n) pkd (config_for n) nd) e = Ok (gi, pre, post, slot) ->
     exists st, checkpoint_state X (network_spec n) (nd_states nd) (finalized pre) = Ok st /\
       sound_data X (network_spec n) pkd (nd_headers nd) (finalized pre) st [root (finalized post)] /\
       typed_answers C (network_spec n) pkd (nd_states nd) (gi_attestations gi) /\
       wf_checkpoint (current_justified pre) /\ wf_checkpoint (finalized pre) /\
       N.of_nat (length (st_validators (hs_state st))) < 2 ^ 21 /\ N.of_nat (length (encode_input C gi)) < 2 ^ 32) ->
  inputs_fit n X C pkd nd.
Proof.
  intros Sane S H e gi pre post slot P. destruct (H e gi pre post slot P) as (st & Ec & D & T & W1 & W2 & K & L).
  split; [|split; [exact L|]].
  - eapply (C70_input_read C X (network_spec n) pkd); eauto using collect_from_ok.
    change (2 ^ 21) with 2097152 in K. change (2 ^ 32) with 4294967296. lia.
  - assert (B : (length (gi_public_keys gi) <= length (st_validators (hs_state st)))%nat); [|lia].
    eapply C87_prepared_keys; [apply collect_from_ok|apply (sd_hash _ _ _ _ _ _ _ D)|exact P|exact Ec|]. apply (sd_state _ _ _ _ _ _ _ D).
Qed.

Section HonestRuns.
  Variables (n : Network) (X0 : Externals) (C : Codec) (pkd : bytes -> option PublicKey).
  Hypothesis S : sane_codec C.
  Hypothesis Ml : mainnet_limits C.
  Hypothesis Sb : signatures_by_bytes X0.
  Let tool := zkasper (host_side X0) C 64 pkd (faithful X0 C) n.

  Lemma honest_sync mode nodes st ts : network_follow n (host_side X0) C pkd nodes st ts ->
    exists e, sync_loop (encode_input C) (run_verify (host_side X0) (decode_input C 64) (execute_guest_program (faithful X0 C) n) (network_spec n) (config_for n) (in_zkvm mode))
      (map (view (host_side X0) (network_spec n) pkd (config_for n)) nodes) st = (ok_log st ts, Running e).
  Proof. exact (C72_sync n (on_platform X0 64) C pkd eq_refl S Ml Sb (in_zkvm mode) nodes st ts). Qed.
  (** On an honest chain (Spec/NetworkRun.v) that goes on to finalize [t], [verify] reports [t], in every mode. *)
  Theorem C88_honest_verify mode nd more s t slot : network_node n (host_side X0) C pkd nd (finalized s) s t slot -> FFG.wf_state s -> FFG.wf_state t ->
    tool (Verify mode (epoch (finalized s))) (nd :: more) = mkRun [] None (Some t) Success.
  Proof.
    intros H W1 W2. destruct (honest_sync mode [nd] s [t]) as (e & E); [eapply nf_step; eauto; apply nf_end|].
    unfold tool. cbn [zkasper]. cbn [map sync_loop] in E.
    destruct (vw_prepare _ (epoch (finalized s))) as [[[[gi pre] ex] sl]| |]; [|discriminate..].
    destruct (run_verify _ _ _ _ _ _ pre _) as [got| |]; [|discriminate..]. cbn in E.
    destruct (state_eqb got ex) eqn:Eq; [|discriminate]. apply state_eqb_eq in Eq as ->. injection E as ->. reflexivity.
  Qed.
  (** [sync] logs Ok for each step, in every mode, and goes on. *)
  Theorem C88_honest_sync mode slot nd later st ts : ch_state (nd_chain nd) slot = Ok st -> network_follow n (host_side X0) C pkd later st ts ->
    tool (Sync mode slot true) (nd :: later) = mkRun [] (Some (ok_log st ts)) None Ongoing.
  Proof.
    intros Hs F. destruct (honest_sync mode later st ts F) as (e & E). unfold tool. cbn [zkasper]. rewrite Hs, E. reflexivity.
  Qed.
  (** [build-input --continuous] builds every step, in files that make the guest commit their journal, and goes on. *)
  Theorem C88_honest_build d nodes trusted steps : network_watch n (host_side X0) C pkd nodes trusted steps ->
    let r := tool (BuildInput (epoch trusted) true) nodes in
    ran_end r = Ongoing /\ map (fun b => (b_pre b, b_post b, b_slot b)) (ran_built r) = steps /\
    forall b, In b (ran_built r) -> exists input journal,
      build_disk (encode_input C) d (ran_built r) (InputFile (b_epoch b)) = Some input /\
      build_disk (encode_input C) d (ran_built r) (JournalFile (b_epoch b)) = Some journal /\
      guest_for n (guest_side X0) (decode_input C 32) input = Ok journal.
  Proof.
    intros W. destruct (C72_build_input n (on_platform X0 64) C pkd eq_refl S Ml Sb d nodes trusted steps W) as (bs & e & B1 & B2 & B3).
    unfold tool. cbn [zkasper]. change (with_swap_or_not (on_platform X0 64) 64) with (host_side X0) in B1. rewrite B1. cbn [ran_end ran_built]. auto.
  Qed.
End HonestRuns.

(** ** The limits of the log, and cases that meet the hypotheses *)
(** The same node, except that it gives another state for one slot. *)
Definition o_chain (ch : Chain) (slot : Slot) (st : ConsensusState) : Chain :=
  mkChain (fun s => if s =? slot then Ok st else ch_state ch s) (ch_block ch) (ch_header_slot ch).
Definition o_start : ConsensusState := mkCS (mkCheckpoint (u_T + 1) (toy_root 99)) (finalized (u_at (u_T + 2))).
Definition o_node : Node := mkNode (Ok (u_T + 1)) u_states u_headers u_blocks (o_chain u_chain 7 o_start) 5.
Lemma o_run mode : zkasper (host_side z_X0) n_codec 64 h_deserialize (faithful z_X0 n_codec) Mainnet (Sync mode 7 true) [o_node; u_node (u_T + 1)]
  = mkRun [] (Some [mkSyncLine o_start (u_at (u_T + 3)) SyncOk]) None Ongoing.
Proof.
  apply (C88_honest_sync Mainnet z_X0 n_codec h_deserialize n_sane u_limits z_bytes mode 7 o_node [u_node (u_T + 1)] o_start [u_at (u_T + 3)]); [reflexivity|].
  eapply nf_step; [exact (u_stepA (u_T + 1))|apply u_wf; auto|apply u_wf; auto|apply nf_end].
Qed.
(** A line that says Ok does not mean that its own step was verified: the state at the start of the first
    line is whatever the node gave, and only its finalized epoch is used. The step that was verified starts
    at another state. *)
Theorem C88_first_line_refuted : exists n X0 C pkd slot nd nd' st post gi pre sl,
  (forall mode, zkasper (host_side X0) C 64 pkd (faithful X0 C) n (Sync mode slot true) [nd; nd'] = mkRun [] (Some [mkSyncLine st post SyncOk]) None Ongoing) /\
  vw_prepare (view (host_side X0) (network_spec n) pkd (config_for n) nd') (epoch (finalized st)) = Ok (gi, pre, post, sl) /\
  pre <> st.
Proof.
  pose proof (step_input Mainnet (on_platform z_X0 64) n_codec h_deserialize eq_refl n_sane u_limits z_bytes _ _ _ _ _ (u_stepA (u_T + 1))) as (gi & P & _).
  exists Mainnet, z_X0, n_codec, h_deserialize, 7, o_node, (u_node (u_T + 1)), o_start, (u_at (u_T + 3)), gi, (u_at (u_T + 2)), (32 * (u_T + 1)).
  split; [exact o_run|]. split; [exact P|]. intros E. apply (f_equal (fun s => root (current_justified s))) in E. vm_compute in E. discriminate.
Qed.

(** A node whose inputs fit. *)
Definition o_fit (n : Network) : Node := mkNode (Ok (w_trust n + 1)) (z_states n) (z_headers n) (z_blocks n) (z_chain n) 5.
Example C88_fit_nonvacuous n : inputs_fit n (host_side z_X0) n_codec h_deserialize (o_fit n) /\
  exists gi, vw_prepare (view (host_side z_X0) (network_spec n) h_deserialize (config_for n) (o_fit n)) (w_trust n) = Ok (gi, w_pre n, w_post n, 32 * w_trust n + 32).
Proof.
  destruct (C70_nonvacuous n) as (gi0 & P0 & _ & D0 & L0). split; [|exists gi0; exact P0].
  assert (T : 100 < w_trust n < 2 ^ 40) by (destruct n; vm_compute; split; reflexivity). change (2 ^ 40) with 1099511627776 in T.
  intros e gi pre post slot P. cbn [o_fit nd_states nd_headers nd_blocks nd_chain nd_fuel] in P.
  assert (E : e = w_trust n).
  { unfold prepare_input in P. apply bind_ok in P as (st & P1 & P). apply bind_ok in P as (o & P2 & P). apply bind_ok in P as (b & P3 & _).
    apply (proj1 (map_err_ok _ _ _)) in P1, P2. unfold state_at_epoch_boundary, state_at_epoch in P1.
    assert (Q : forall s st', z_states n s = Ok st' -> hd_slot (hs_header st') = st_slot (hs_state st') /\ st_slot (hs_state st') = s).
    { intros s st'. unfold z_states. destruct (s =? 32 * w_trust n) eqn:E1; [apply N.eqb_eq in E1 as ->; intros [= <-]; split; reflexivity|].
      destruct (s =? 32 * (w_trust n + 2)) eqn:E2; [apply N.eqb_eq in E2 as ->; intros [= <-]; split; reflexivity|].
      destruct (s =? 0) eqn:E3; [apply N.eqb_eq in E3 as ->; intros [= <-]; split; reflexivity|discriminate]. }
    apply bind_ok in P1 as (st' & Q1 & P1). destruct (Q _ _ Q1) as [Q2 Q3]. rewrite Q2, N.eqb_refl in P1. injection P1 as <-.
    rewrite Q2, Q3 in P2. unfold z_blocks in P2. destruct (start_slot (network_spec n) e =? 32 * w_trust n) eqn:E; [|injection P2 as <-; discriminate P3].
    apply N.eqb_eq in E.
    unfold start_slot, sat_mul in E. replace (slots_per_epoch (network_spec n)) with 32 in E by (destruct n; reflexivity).
    change u64_max with 18446744073709551615 in E. lia. }
  subst e. change (host_side z_X0) with z_X in P. rewrite P0 in P. injection P as <- _ _ _. split; [exact D0|]. split; [exact L0|].

  pose proof (C87_prepared_keys _ _ _ _ _ _ _ _ _ _ _ _ _ (z_hstate n (w_trust n)) (collect_from_ok (network_spec n) (z_chain n) 5) (sd_hash _ _ _ _ _ _ _ (z_sound n)) P0) as B.
  assert (W : wf_registry (st_validators (hs_state (z_hstate n (w_trust n))))) by apply (sd_state _ _ _ _ _ _ _ (z_sound n)).
  specialize (B (z_checkpoint n) W). change (st_validators (hs_state (z_hstate n (w_trust n)))) with w_vs in B.
  change (length w_vs) with 8%nat in B. change (2 ^ 21) with 2097152. lia.
Qed.
(** [verify] on it ends well in every mode. *)
Example C88_verify_nonvacuous mode : zkasper (host_side z_X0) n_codec 64 h_deserialize (faithful z_X0 n_codec) Mainnet (Verify mode u_T) [u_node (u_T + 1)]
  = mkRun [] None (Some (u_at (u_T + 3))) Success.
Proof.
  apply (C88_honest_verify Mainnet z_X0 n_codec h_deserialize n_sane u_limits z_bytes mode (u_node (u_T + 1)) [] (u_at (u_T + 2)) (u_at (u_T + 3)) (32 * (u_T + 1)));
    [exact (u_stepA (u_T + 1))|apply u_wf; auto|apply u_wf; auto].
Qed.
Example C88_build_nonvacuous (d : disk) : let r := zkasper (host_side z_X0) n_codec 64 h_deserialize (faithful z_X0 n_codec) Mainnet (BuildInput u_T true) u_nodes in
  ran_end r = Ongoing /\ length (ran_built r) = 2%nat.
Proof.
  pose proof (C88_honest_build Mainnet z_X0 n_codec h_deserialize n_sane u_limits z_bytes d u_nodes (u_cp u_T) u_steps u_watch) as H.
  change (epoch (u_cp u_T)) with u_T in H. cbv zeta in *. destruct H as (H1 & H2 & _). split; [exact H1|].
  apply (f_equal (@length _)) in H2. rewrite map_length in H2. exact H2.
Qed.

Print Assumptions C88_effects.
Print Assumptions C88_ssz_is_native.
Print Assumptions C88_r0vm_only_refuses.
Print Assumptions C88_mode_does_not_matter.
Print Assumptions C88_verified_is_provable.
Print Assumptions C88_log.
Print Assumptions C88_inputs_fit.
Print Assumptions C88_honest_verify.
Print Assumptions C88_honest_sync.
Print Assumptions C88_honest_build.
Print Assumptions C88_first_line_refuted.
Print Assumptions C88_fit_nonvacuous.
Print Assumptions C88_verify_nonvacuous.
Print Assumptions C88_build_nonvacuous.
