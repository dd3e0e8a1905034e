(** C57: from an honest chain to the committed transition. *)
From Coq Require Import List Arith ZArith NArith Bool Lia Sorted.
From Verif.Model Require Import Base Types ConsensusState Multiproof Verify GuestReader Guest HostChain HostStore HostInput Cli CliRun.
From Verif.Spec Require FFG.
From Verif.Spec Require Import Merkle Ssz Beacon GuestSpec Committees VerifySpec HostSpec Pipeline HostInputSpec.
From Verif.Proof Require Import BaseLemmas VerifyP VerifyMoreP GuestP EndToEndP HostChainP HostInputP HostGuestP ReplayP PreflightP PipelineP.
From Verif.Props Require Import VerifyProps GuestToy HostToy HostInputProps ReplayProps.
Import ListNotations.
Open Scope N_scope.
Notation length := List.length.

(** On a chain in which finality moves on after the trusted checkpoint, the host stops at the first
    epoch that finalizes the checkpoint and collects exactly the votes for the links up to the next
    finality. *)
Theorem C57_host_collects : forall cs ch trusted e s us t ls bs fuel, 0 < slots_per_epoch cs ->
  next_finality cs ch trusted e s us t ls -> vote_window cs ch ls bs ->
  (* the search is long enough, and slots do not overflow *)
  e <= epoch trusted + N.of_nat fuel -> (length us < fuel)%nat -> (e + 1 + N.of_nat fuel) * slots_per_epoch cs < 2 ^ 64 ->
  host_new cs ch trusted fuel = Some (Ok (s, chain_votes ls bs)).
Proof. exact host_new_ok. Qed.
(** The votes being valid and sufficient, the preflight run ends in the chain's own next state. *)
Theorem C57_preflight_reaches_next_finality : forall X cs cfg pk_deserialize states headers ch trusted e s us t ls bs h,
  sane_spec X cs -> shuffle_permutes X -> next_finality cs ch trusted e s us t ls ->
  let R := host_reader cs pk_deserialize states headers s (chain_votes ls bs) in
  Forall (fun l => FFG.u64 (epoch (target l)) /\ within_bounds cfg cs trusted l /\ votes_for l (included bs) <> [] /\
                   link_evidence X cfg R l (votes_for l (included bs))) ls ->
  headers (root (finalized t)) = Ok (Some h) ->
  verify X cfg (preflight_reader trusted R) = Ok (t, hd_slot h).
Proof. exact preflight_complete. Qed.

Lemma collect_from_ok cs ch fuel c cst atts : collect_from cs ch fuel c = Ok (cst, atts) -> finalized cst = c.
Proof.
  unfold collect_from, host_new. destruct (find_finalization_epoch cs ch c fuel) as [[e| |]|]; try discriminate.
  destruct (get_justifications_until_new_finality cs ch e fuel) as [r|]; [|discriminate]. intros E.
  apply bind_ok in E as ([[s t] ls] & _ & E). apply bind_ok in E as (u & E1 & E). apply bind_ok in E as (a & _ & E). injection E as <- <-.
  destruct (checkpoint_eqb (finalized s) c) eqn:Ec; [|discriminate]. now apply checkpoint_eqb_eq.
Qed.

Lemma pipeline_core :
  forall X bits cs pk_deserialize states headers blocks ch fuel cfg trusted e s us t ls bs st active h,
  let votes := chain_votes ls bs in
  let R := host_reader cs pk_deserialize states headers s votes in
  (* the chain *)
  next_finality cs ch trusted e s us t ls -> vote_window cs ch ls bs ->
  e <= epoch trusted + N.of_nat fuel -> (length us < fuel)%nat -> (e + 1 + N.of_nat fuel) * slots_per_epoch cs < 2 ^ 64 ->
  Forall (fun l => FFG.u64 (epoch (target l)) /\ within_bounds cfg cs trusted l /\ votes_for l (included bs) <> [] /\
                   link_evidence X cfg R l (votes_for l (included bs))) ls ->
  headers (root (finalized t)) = Ok (Some h) -> mroot (sha256 X) (header_tree (sha256 X) h) = root (finalized t) ->
  (* the trusted state and its block *)
  checkpoint_state X cs states trusted = Ok st -> hs_supported st = true ->
  blocks (hd_slot (hs_header st)) = Ok (Some (boundary_block X st)) ->
  sound_data X cs pk_deserialize headers trusted st [root (finalized t)] ->
  rd_active_validators R (epoch trusted) = Ok active ->
  (* the later states *)
  steady_chain cs states trusted st votes ->
  (forall e st', In e (target_epochs votes) -> states (start_slot cs e) = Ok st' ->
     exit_changes (st_validators (hs_state st')) (st_validators (hs_state st)) []) ->
  (* sizes *)
  epoch (current_justified s) + 1 + max_seed_lookahead cs < 2 ^ 64 -> 1 <= epoch trusted ->
  epoch trusted + 1 + max_seed_lookahead cs < 2 ^ 64 ->
  far_future_epoch cs = 2 ^ 64 - 1 -> sane_spec X cs -> sane_spec (on_platform X bits) cs -> shuffle_permutes X ->
  registry_fits X cs (st_validators (hs_state st)) (target_epochs votes) ->
  registry_fits (on_platform X bits) cs (st_validators (hs_state st)) (target_epochs votes) ->
  balances_fit cs (st_validators (hs_state st)) ->
  exists gi,
    prepare_input X cs pk_deserialize states headers blocks (collect_from cs ch fuel) cfg (epoch trusted) = Ok (gi, s, t, hd_slot h) /\
    exists r, into_reader (on_platform X bits) cs gi = Ok r /\ verify (on_platform X bits) cfg (guest_reader r) = Ok (t, hd_slot h).
Proof.
  intros X bits cs pkd states headers blocks ch fuel cfg trusted e s us t ls bs st active h votes R
    N W Hf1 Hf2 Hf3 Ev Hh Hr Ec Hsup Hblk D Hact Sc Hx Hj Ht Htr Hff S1 S2 Hsh F1 F2 B.
  pose proof (nf_trusted _ _ _ _ _ _ _ _ N) as T.
  assert (Hspe : 0 < slots_per_epoch cs) by (destruct S1 as [S1 _]; lia).
  assert (C : collect_from cs ch fuel trusted = Ok (s, votes)).
  { unfold collect_from. now rewrite (host_new_ok cs ch trusted e s us t ls bs fuel). }
  pose proof (preflight_complete X cs cfg pkd states headers ch trusted e s us t ls bs h S1 Hsh N Ev Hh) as V.
  fold votes in V. fold R in V.
  assert (K : keys_match pkd (st_validators (hs_state st)) active).
  { eapply host_keys_match; [|exact Hact]. intros st' i v v'. apply (sc_keys _ _ _ _ _ Sc). }
  assert (Tv : forall x, In x (target_epochs votes) -> exists l, In l ls /\ epoch (target l) = x).
  { intros x Hx'. unfold target_epochs in Hx'. apply in_map_iff in Hx' as (a & <- & Ha). unfold votes, chain_votes in Ha.
    apply in_flat_map in Ha as (l & Hl & Ha). exists l. split; [exact Hl|]. apply votes_for_link in Ha as <-. reflexivity. }
  assert (Mx : forall x, In x (target_epochs votes) -> exists st', states (start_slot cs x) = Ok st' /\
     nth_error (hs_randao_mixes st') (N.to_nat (seed_epoch_index cs x)) <> None).
  { intros x Hx'. destruct (Tv x Hx') as (l & Hl & <-). rewrite Forall_forall in Ev.
    destruct (Ev l Hl) as (_ & _ & _ & f & gvr & avl & av & mix & sh & sets & P & E). cbv zeta in E.
    destruct E as (_ & _ & _ & _ & _ & _ & _ & E & _). unfold R in E. cbn [host_reader rd_randao_mix rd_chain_spec] in E.
    apply bind_ok in E as (st' & E1 & E2). injection E2 as E2. unfold reader_state in E1. apply map_err_ok in E1.
    exists st'. split; [exact E1|congruence]. }
  destruct (C52_host_builds_input X cs pkd states headers trusted st R active votes t s h D S1 Ec Hsup eq_refl eq_refl Hact K Mx Hh Hr)
    as (gi & Gi).
  assert (P : prepare_input X cs pkd states headers blocks (collect_from cs ch fuel) cfg (epoch trusted) = Ok (gi, s, t, hd_slot h)).
  { unfold prepare_input. pose proof Ec as Ec'. unfold checkpoint_state, state_at_checkpoint in Ec'.
    apply bind_ok in Ec' as (st1 & E1 & E2). apply bind_ok in E2 as (u & E2 & E3). injection E3 as ->.
    rewrite E1. cbn [map_err bind]. rewrite Hblk. cbn [map_err bind ok_or].
    assert (A : bytes_eqb (hd_state_root (boundary_block X st)) (tree_root X (state_tree (sha256 X) (hs_state st))) = true)
      by (apply bytes_eqb_eq; reflexivity).
    rewrite A. cbn [assert_ bind].
    assert (Rt : mkCheckpoint (epoch trusted) (tree_root X (header_tree (sha256 X) (boundary_block X st))) = trusted).
    { unfold ensure in E2. destruct (bytes_eqb (root trusted) (boundary_root X st)) eqn:Eb; [|discriminate]. apply bytes_eqb_eq in Eb.
      change (tree_root X (header_tree (sha256 X) (boundary_block X st))) with (boundary_root X st). rewrite <- Eb. now destruct trusted. }
    rewrite Rt, C. cbn [map_err bind]. fold R. rewrite V. cbn [map_err bind]. rewrite Gi. cbn [bind].
    destruct (to_input_reads X cs pkd states headers trusted R _ gi (sd_hash _ _ _ _ _ _ _ D) (sd_keys _ _ _ _ _ _ _ D) (sd_decodes _ _ _ _ _ _ _ D) Gi)
      as (_ & _ & cst & _ & _ & _ & _ & _ & C1 & _ & C3 & _).
    unfold R in C1. cbn [host_reader rd_consensus_state] in C1. injection C1 as C1. now rewrite C3, <- C1. }
  exists gi. split; [exact P|].
  destruct (to_input_reads X cs pkd states headers trusted R _ gi (sd_hash _ _ _ _ _ _ _ D) (sd_keys _ _ _ _ _ _ _ D) (sd_decodes _ _ _ _ _ _ _ D) Gi)
      as (_ & _ & _ & _ & _ & _ & _ & _ & _ & C2 & _).
  unfold R in C2. cbn [host_reader rd_attestations] in C2. injection C2 as C2. rewrite <- T in Ec, D, Sc, Ht, Htr.
  eapply (guest_verifies_prediction X bits cs pkd states headers blocks (collect_from cs ch fuel)); try rewrite <- C2; eauto.
  - apply collect_from_ok.
  - intros x Hx'. destruct (Tv x Hx') as (l & Hl & <-). rewrite Forall_forall in Ev. now apply Ev.
Qed.

(** End to end: if the chain finalizes something after the trusted checkpoint with valid and sufficient
    votes included in time, and the voters have not changed since the trusted state, then the host
    prepares an input for which the guest commits the transition from the chain's state to the chain's
    next finalized state. *)
Theorem C57_pipeline :
  forall X bits cs pk_deserialize states headers blocks ch fuel cfg trusted e s us t ls bs st active h,
  let votes := chain_votes ls bs in
  let R := host_reader cs pk_deserialize states headers s votes in
  (* the chain *)
  next_finality cs ch trusted e s us t ls -> vote_window cs ch ls bs ->
  e <= epoch trusted + N.of_nat fuel -> (length us < fuel)%nat -> (e + 1 + N.of_nat fuel) * slots_per_epoch cs < 2 ^ 64 ->
  Forall (fun l => FFG.u64 (epoch (target l)) /\ within_bounds cfg cs trusted l /\ votes_for l (included bs) <> [] /\
                   link_evidence X cfg R l (votes_for l (included bs))) ls ->
  headers (root (finalized t)) = Ok (Some h) -> mroot (sha256 X) (header_tree (sha256 X) h) = root (finalized t) ->
  (* the trusted state and its block *)
  checkpoint_state X cs states trusted = Ok st -> hs_supported st = true ->
  blocks (hd_slot (hs_header st)) = Ok (Some (boundary_block X st)) ->
  sound_data X cs pk_deserialize headers trusted st [root (finalized t)] ->
  rd_active_validators R (epoch trusted) = Ok active ->
  (* the later states *)
  steady_chain cs states trusted st votes ->
  (forall e st', In e (target_epochs votes) -> states (start_slot cs e) = Ok st' ->
     exit_changes (st_validators (hs_state st')) (st_validators (hs_state st)) []) ->
  (* sizes *)
  epoch (current_justified s) + 1 + max_seed_lookahead cs < 2 ^ 64 -> 1 <= epoch trusted ->
  epoch trusted + 1 + max_seed_lookahead cs < 2 ^ 64 ->
  far_future_epoch cs = 2 ^ 64 - 1 -> sane_spec X cs -> sane_spec (on_platform X bits) cs -> shuffle_permutes X ->
  registry_fits X cs (st_validators (hs_state st)) (target_epochs votes) ->
  registry_fits (on_platform X bits) cs (st_validators (hs_state st)) (target_epochs votes) ->
  balances_fit cs (st_validators (hs_state st)) ->
  exists gi,
    prepare_input X cs pk_deserialize states headers blocks (collect_from cs ch fuel) cfg (epoch trusted) = Ok (gi, s, t, hd_slot h) /\
    forall decode frame, decode frame = Some gi ->
      entry (on_platform X bits) decode cs cfg frame = Ok (journal_encode s t (hd_slot h)).
Proof.
  intros X bits cs pkd states headers blocks ch fuel cfg trusted e s us t ls bs st active h votes R
    N W Hf1 Hf2 Hf3 Ev Hh Hr Ec Hsup Hblk D Hact Sc Hx Hj Ht Htr Hff S1 S2 Hsh F1 F2 B.
  destruct (pipeline_core X bits cs pkd states headers blocks ch fuel cfg trusted e s us t ls bs st active h
    N W Hf1 Hf2 Hf3 Ev Hh Hr Ec Hsup Hblk D Hact Sc Hx Hj Ht Htr Hff S1 S2 Hsh F1 F2 B) as (gi & P & r & R1 & R2).
  exists gi. split; [exact P|]. intros decode frame Hd.
  destruct (prepare_input_inv _ _ _ _ _ _ _ _ _ _ _ _ _ (collect_from_ok cs ch fuel) P) as (P1 & _). rewrite <- P1.
  eapply entry_of_verify; eauto.
Qed.

(** The toy chain: checkpoint 9 is finalized at epoch 11, 12 is justified at epoch 13 and finalized at
    epoch 14. Its votes are spread over blocks, between votes for other links. *)
Definition p_state (f j : Checkpoint) : ConsensusState := mkCS j f.
Definition p_chain : Chain :=
  mkChain (fun slot => if slot =? 20 then Ok (mkCS (mkCheckpoint 9 g_root) (mkCheckpoint 7 (toy_root 7)))
                       else if slot =? 22 then Ok g_trusted
                       else if slot =? 24 then Ok g_trusted
                       else if slot =? 26 then Ok (mkCS (mkCheckpoint 12 g_root12) (finalized g_trusted))
                       else if slot =? 28 then Ok h_post
                       else Err 9)
    (fun slot => Ok (if slot =? 25 then Some (mkBlock true (firstn 1 g_atts))
                     else if slot =? 27 then Some (mkBlock true [nth 2 g_atts (g_att 0 g_l1 [] []); g_att 24 (mkLink (mkCheckpoint 9 g_root) (target g_l1)) [] [];
                                                                 nth 1 g_atts (g_att 0 g_l1 [] [])])
                     else if slot =? 28 then Some (mkBlock true (skipn 3 g_atts)) else None))
    (fun _ => Err 9).
Definition p_us : list ConsensusState := [g_trusted; mkCS (mkCheckpoint 12 g_root12) (finalized g_trusted)].
Definition p_blocks : list Block :=
  [mkBlock true (firstn 1 g_atts);
   mkBlock true [nth 2 g_atts (g_att 0 g_l1 [] []); g_att 24 (mkLink (mkCheckpoint 9 g_root) (target g_l1)) [] []; nth 1 g_atts (g_att 0 g_l1 [] [])];
   mkBlock true (skipn 3 g_atts)].
Lemma p_next : next_finality toy_cs p_chain (finalized g_trusted) 11 g_trusted p_us h_post [g_l1; g_l2].
Proof.
  constructor.
  - split; [vm_compute; reflexivity|]. split.
    + exists g_trusted. split; reflexivity.
    + intros e' He'. cbn [finalized g_trusted epoch] in He'. assert (e' = 10) as -> by lia.
      eexists. split; [reflexivity|]. vm_compute. reflexivity.
  - reflexivity.
  - cbn [p_us app states_from]. unfold state_at. repeat split.
  - repeat constructor.
  - cbn. congruence.
  - cbn [p_us app]. assert (V : FFG.valid_state g_trusted) by (left; vm_compute; reflexivity).
    apply hist_same; [exact V|]. apply hist_link; [exact V|apply FFG.ffg_justify; cbn; lia|intros [Hg _]; discriminate Hg|].
    apply hist_link; [left; vm_compute; reflexivity|apply FFG.ffg_finalize; reflexivity|intros [Hg _]; discriminate Hg|].
    constructor.
Qed.
Lemma p_window : vote_window toy_cs p_chain [g_l1; g_l2] p_blocks.
Proof.
  constructor; [|repeat constructor].
  exists 12, 13, [24; 25; 26; 27; 28]. split; [|split; [vm_compute; reflexivity|split]].
  - split; [|split].
    + intros l [<-|[<-|[]]]; cbn; lia.
    + exists g_l1. split; [now left|reflexivity].
    + exists g_l2. split; [right; now left|reflexivity].
  - split; [repeat constructor|]. intros x. cbn [In slots_per_epoch toy_cs]. lia.
  - exists [None; Some (nth 0 p_blocks (mkBlock true [])); None; Some (nth 1 p_blocks (mkBlock true [])); Some (nth 2 p_blocks (mkBlock true []))].
    split; [repeat constructor|reflexivity].
Qed.
Lemma votes_for_eqb l atts : votes_for l atts = filter (fun a => link_eqb (link_of a) l) atts.
Proof.
  apply filter_ext. intros a. destruct (link_eq_dec (link_of a) l) as [->|Hn].
  - symmetry. now apply link_eqb_eq.
  - symmetry. now apply link_eqb_neq.
Qed.
Lemma p_votes1 : votes_for g_l1 (included p_blocks) = firstn 2 g_atts.
Proof. rewrite votes_for_eqb. vm_compute. reflexivity. Qed.
Lemma p_votes2 : votes_for g_l2 (included p_blocks) = skipn 2 g_atts.
Proof. rewrite votes_for_eqb. vm_compute. reflexivity. Qed.
Lemma p_votes : chain_votes [g_l1; g_l2] p_blocks = g_atts.
Proof. unfold chain_votes. cbn [flat_map]. rewrite p_votes1, p_votes2. reflexivity. Qed.
Lemma count_le {A} (f : A -> bool) l : (length (filter f l) <= length l)%nat.
Proof. induction l as [|a l IH]; cbn [filter length]; [lia|]. destruct (f a); cbn [length]; lia. Qed.
Lemma p_fits : reader_fits g_X h_R_quiet.
Proof.
  intros e avl av Ha Hact. cbn [h_R_quiet host_reader rd_active_validators] in Ha. apply bind_ok in Ha as (st & E & Ha).
  pose proof (host_voters _ _ _ _ Ha) as V. apply active_set_sorted in Hact as ->; [|apply V].
  destruct (voters_small _ _ _ _ V) as [-> _].
  assert (L : (length (st_validators (hs_state st)) <= 10)%nat).
  { unfold reader_state in E. apply map_err_ok in E. unfold h_quiet, h_states_of in E.
    destruct (start_slot toy_cs e =? 18); [injection E as <-; vm_compute; lia|].
    destruct (start_slot toy_cs e =? 24); [injection E as <-; vm_compute; lia|].
    destruct (start_slot toy_cs e =? 26); [injection E as <-; vm_compute; lia|discriminate]. }
  assert (A : active_count (st_validators (hs_state st)) e <= 10).
  { unfold active_count. pose proof (count_le (fun v => (v_activation_epoch v <=? e) && (e <? v_exit_epoch v)) (st_validators (hs_state st))) as F. lia. }
  set (n := active_count _ _) in *. clearbody n. cbn [h_R_quiet host_reader rd_chain_spec].
  assert (Cc : 1 <= committee_count toy_cs n <= 64) by (unfold committee_count; cbn [max_committees_per_slot toy_cs]; lia).
  unfold fits_platform. cbn [g_X usize_bits slots_per_epoch toy_cs]. set (cc := committee_count toy_cs n) in *. clearbody cc.
  repeat split; try lia; [exists (2 ^ 31); reflexivity|].
  apply N.le_lt_trans with (10 * (64 * 2)); [apply N.mul_le_mono; lia|vm_compute; reflexivity].
Qed.
Lemma p_evidence : Forall (fun l => FFG.u64 (epoch (target l)) /\ within_bounds DEFAULT_CONFIG toy_cs (finalized g_trusted) l /\
  votes_for l (included p_blocks) <> [] /\ link_evidence g_X DEFAULT_CONFIG h_R_quiet l (votes_for l (included p_blocks))) [g_l1; g_l2].
Proof.
  assert (V : verify g_X DEFAULT_CONFIG h_R_quiet = Ok (h_post, 24)) by (vm_compute; reflexivity).
  apply verify_exact in V; [|exact toy_sane|exact toy_permutes|exact p_fits|].
  2:{ intros atts a E Hi. injection E as <-. apply r_u64. unfold target_epochs. now apply (in_map (fun a => epoch (ad_target (att_data a)))). }
  destruct V as (st0 & atts & gs & E1 & E2 & E3 & _ & E4 & _). injection E1 as <-. injection E2 as <-.
  apply groups_chunk in E3. subst gs.
  assert (G : chunk_by_link g_atts = [(g_l1, firstn 2 g_atts); (g_l2, skipn 2 g_atts)]) by (vm_compute; reflexivity).
  rewrite G in E4. inversion E4 as [|? ? [A1 A2] E5]; subst. inversion E5 as [|? ? [A3 A4] _]; subst. cbn [fst snd] in *.
  constructor; [|constructor; [|constructor]].
  - rewrite p_votes1. split; [vm_compute; reflexivity|]. split; [exact A1|]. split; [discriminate|exact A2].
  - rewrite p_votes2. split; [vm_compute; reflexivity|]. split; [exact A3|]. split; [discriminate|exact A4].
Qed.
Example C57_nonvacuous : exists gi,
  prepare_input g_X toy_cs h_deserialize h_quiet h_headers r_blocks (collect_from toy_cs p_chain 5) DEFAULT_CONFIG 9 = Ok (gi, g_trusted, h_post, 24) /\
  forall decode frame, decode frame = Some gi ->
    entry (on_platform g_X 64) decode toy_cs DEFAULT_CONFIG frame = Ok (journal_encode g_trusted h_post 24).
Proof.
  apply (C57_pipeline g_X 64 toy_cs h_deserialize h_quiet h_headers r_blocks p_chain 5 DEFAULT_CONFIG (finalized g_trusted) 11 g_trusted p_us h_post
           [g_l1; g_l2] p_blocks (h_hstate 18 g_vs) h_active g_header12); try rewrite p_votes.
  - exact p_next.
  - exact p_window.
  - vm_compute. discriminate.
  - vm_compute. lia.
  - vm_compute. reflexivity.
  - exact p_evidence.
  - reflexivity.
  - vm_compute. reflexivity.
  - apply h_checkpoint.
  - reflexivity.
  - assert (E : tree_root g_X (state_tree (sha256 g_X) (hs_state (h_hstate 18 g_vs))) = g_state_root) by (vm_compute; reflexivity).
    unfold boundary_block. rewrite E. reflexivity.
  - exact h_sound.
  - exact h_active_ok.
  - apply r_steady. now right.
  - rewrite r_targets. intros e st' He E'. cbn [In] in He.
    repeat destruct He as [He|He]; try contradiction; subst e; injection E' as <-; apply exit_same.
  - vm_compute. reflexivity.
  - vm_compute. discriminate.
  - vm_compute. reflexivity.
  - reflexivity.
  - exact toy_sane.
  - repeat split; try (vm_compute; congruence). exists (2 ^ 48). reflexivity.
  - exact toy_permutes.
  - apply (r_fits 32). now left.
  - apply (r_fits 64). now right.
  - split; [discriminate|split; [discriminate|vm_compute; reflexivity]].
Qed.

Print Assumptions C57_host_collects.
Print Assumptions C57_preflight_reaches_next_finality.
Print Assumptions C57_pipeline.
Print Assumptions C57_nonvacuous.
