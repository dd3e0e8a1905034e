(** C71: the pipeline succeeds on a chain whose registry moves: validators join, exit and are slashed,
    and balances change, while votes are collected. *)
From Coq Require Import List Arith NArith Bool Lia Sorted Permutation.
From Coq Require Import ZifyBool ZifyNat ZifyN.
From Coq.Init Require Import Byte.
From Verif.Model Require Import Base Types TreeHash Gindices Shuffle Committee ConsensusState Verify GuestReader Guest Cli CliRun HostChain HostStore HostInput StateFile InputCodec Networks.
From Verif.Spec Require FFG.
From Verif.Spec Require Import FFG Merkle Ssz Beacon Registry GuestSpec Committees VerifySpec HostSpec Pipeline HostInputSpec ExitQueue InputCodecSpec NetworkSpec ShuffleSpec Meaning Honest Moving.
From Verif.Proof Require Import BaseLemmas VerifyP VerifyMoreP GuestP PatchP ExitQueueP EndToEndP HostChainP HostInputP HostGuestP PreflightP ShuffleP InputWfP InputSizeP PipelineP.
From Verif.Props Require Import CommitteeProps VerifyProps ExitProps GuestToy HostToy HostInputProps CliProps ReplayProps PipelineProps InputCodecProps ClientProps NetworkProps ShuffleProps MeaningProps HonestProps.
Import ListNotations.
Open Scope N_scope.

(** ** Voters of a moving registry *)
Lemma moves_active limit vs vs' e : registry_moves limit vs vs' -> e <= limit -> active_indices vs' e = active_indices vs e.
Proof.
  intros [L M] He. apply sorted_ext; [apply active_indices_sorted|apply active_indices_sorted|]. intros i. rewrite !active_indices_In.
  split; intros (v & Hv & Ha).
  - specialize (M _ _ Hv). destruct (nth_error vs (N.to_nat i)) as [w|]; [|lia]. exists w. split; [reflexivity|].
    destruct M as (_ & [M1|M1] & [M2|M2]); lia.
  - assert (Hn : nth_error vs' (N.to_nat i) <> None).
    { apply nth_error_Some. assert (Q : nth_error vs (N.to_nat i) <> None) by congruence. apply nth_error_Some in Q. lia. }
    destruct (nth_error vs' (N.to_nat i)) as [w|] eqn:Ew; [|easy]. exists w. split; [reflexivity|]. specialize (M _ _ Ew). rewrite Hv in M.
    destruct M as (_ & [M1|M1] & [M2|M2]); lia.
Qed.
Lemma moves_key limit vs vs' e i : registry_moves limit vs vs' -> In i (active_indices vs e) -> key_at vs' i = key_at vs i.
Proof.
  intros [L M] Hi. apply active_indices_In in Hi as (v & Hv & _). unfold key_at. rewrite Hv.
  assert (Hn : nth_error vs' (N.to_nat i) <> None).
  { apply nth_error_Some. assert (Q : nth_error vs (N.to_nat i) <> None) by congruence. apply nth_error_Some in Q. lia. }
  destruct (nth_error vs' (N.to_nat i)) as [w|] eqn:Ew; [|easy]. specialize (M _ _ Ew). rewrite Hv in M. apply M.
Qed.
Lemma moves_attesting X vs vs' mix a : active_indices vs' (epoch (ad_target (att_data a))) = active_indices vs (epoch (ad_target (att_data a))) ->
  attesting_indices X vs' mix a = attesting_indices X vs mix a.
Proof. intros E. unfold attesting_indices. now rewrite E. Qed.
Lemma moves_justified X n s s' mix l g limit : registry_moves limit (st_validators s) (st_validators s') -> epoch (target l) <= limit ->
  st_genesis_validators_root s' = st_genesis_validators_root s -> justified_by X n s' mix l g ->
  percent n * total_balance (st_validators s) (active_indices (st_validators s) (epoch (target l)))
    <= 100 * total_balance (st_validators s) (voters X (st_validators s) mix (epoch (target l)) g) ->
  justified_by X n s mix l g.
Proof.
  intros M He Hg [Jv _] T. split; [|exact T]. eapply Forall_impl; [|exact Jv]. intros a (V1 & V2 & V3 & V4 & V5 & V6 & keys & V7 & V8).
  assert (E : attesting_indices X (st_validators s') mix a = attesting_indices X (st_validators s) mix a)
    by (apply moves_attesting; rewrite V3; eapply moves_active; eauto).
  rewrite E in V6, V7. rewrite Hg in V8. unfold vote_valid. cbv zeta. split; [exact V1|]. split; [exact V2|]. split; [exact V3|].
  split; [exact V4|]. split; [exact V5|]. split; [exact V6|]. exists keys. split; [|exact V8].
  rewrite V7. apply map_ext_in. intros i Hi. unfold attesting_indices in Hi. apply filter_In in Hi as [Hi _]. eapply moves_key; eauto.
Qed.
Lemma moves_includable X vs vs' mix a limit : registry_moves limit vs vs' -> epoch (ad_target (att_data a)) <= limit ->
  includable X vs' mix a -> includable X vs mix a.
Proof. intros M He. unfold includable. now rewrite (moves_active _ _ _ _ M He). Qed.

(** ** The guest's view *)
Lemma voters_lists X pkd vs e l : decodes X pkd -> voters_at pkd vs e l -> lists_voters X vs e l.
Proof.
  intros D [S V]. split; [exact S|]. split.
  - intros i vi Hi. apply bm_in_get in Hi; [|now apply bm_sorted_keys]. specialize (V i). destruct (nth_error vs (N.to_nat i)) as [v|]; [|congruence].
    destruct ((v_activation_epoch v <=? e) && (e <? v_exit_epoch v)) eqn:Ea; [|congruence].
    destruct V as (vi' & V1 & V2 & V3 & V4). assert (vi' = vi) as -> by congruence. exists v. split; [reflexivity|]. split; [lia|]. split; [now apply D|]. auto.
  - intros i v Hv Ha. specialize (V i). rewrite Hv in V. replace ((v_activation_epoch v <=? e) && (e <? v_exit_epoch v)) with true in V by lia.
    destruct V as (vi & V1 & _). exists vi. now apply bm_get_in.
Qed.
Lemma updated_voters cs pkd vs tr vals se l e : exact_registry (decoded pkd) vs tr vals -> (forall fe, In fe l -> se <= snd fe) ->
  far_future_epoch cs = 2 ^ 64 - 1 -> e < 2 ^ 64 - 1 -> tr <= e -> e <= se + max_seed_lookahead cs ->
  voters_at pkd vs e (filter (fun kv => is_active_at (snd kv) e) (upds cs l vals)).
Proof.
  intros F Hl Hff H64 Ht He. assert (Hs : bm_sorted vals) by (eapply exact_sorted; eauto).
  assert (U : forall v, is_active_at (upd1 cs l v) e = is_active_at v e).
  { intros v. apply (upd1_active cs se); auto; [lia|]. unfold activation_exit_epoch. lia. }
  split; [apply bm_sorted_keys; now apply bm_sorted_filter, upds_sorted|].
  intros i. rewrite bm_get_filter by now apply upds_sorted. destruct F as [_ F]. specialize (F i). rewrite bm_get_upd.
  destruct (bm_get vals i) as [vi|] eqn:Ev; cbn [option_map].
  - destruct (nth_error vs (N.to_nat i)) as [v|]; [|contradiction]. destruct F as (F1 & pk & F2 & ->).
    cbn [fst snd]. rewrite U. unfold is_active_at, record_of. cbn [activation_epoch exit_epoch].
    destruct ((v_activation_epoch v <=? e) && (e <? v_exit_epoch v)); [|reflexivity].
    destruct (upd1_fields cs l (record_of v pk)) as (U1 & U2 & U3 & U4). eexists. split; [reflexivity|].
    unfold voter_of. unfold record_of in U1, U2, U3 |- *. rewrite U1, U2, U3. cbn [pubkey effective_balance slashed]. auto.
  - destruct (nth_error vs (N.to_nat i)) as [v|]; [|reflexivity].
    replace ((v_activation_epoch v <=? e) && (e <? v_exit_epoch v)) with false by lia. reflexivity.
Qed.
Lemma churn_known n X pkd vs tr vals se l : decodes X pkd -> exact_registry (decoded pkd) vs tr vals -> (forall fe, In fe l -> se <= snd fe) ->
  tr < 2 ^ 58 -> tr <= se + 4 -> exit_churn (network_spec n) (upds (network_spec n) l vals) tr = doubled_churn n vs tr.
Proof.
  intros D F Hl H58 Hse. unfold exit_churn, doubled_churn. change (2 ^ 58) with 288230376151711744 in H58.
  assert (V : voters_at pkd vs tr (filter (fun kv => is_active_at (snd kv) tr) (upds (network_spec n) l vals))).
  { eapply updated_voters; eauto; try lia; try (destruct n; reflexivity). replace (max_seed_lookahead (network_spec n)) with 4 by (destruct n; reflexivity). lia. }
  apply (voters_lists X) in V; [|exact D]. set (L := filter _ _) in *.
  replace (balance_of (network_spec n) L) with (N.max 1000000000 (weight L)) by (destruct n; reflexivity).
  rewrite (lv_weight _ _ _ _ V L) by apply incl_refl. rewrite (lv_indices _ _ _ _ V). reflexivity.
Qed.

(** ** Patches show what the queue has assigned *)
Lemma new_exit_get vs' vs ex i x : exit_changes vs' vs ex -> (bm_get ex i = Some x <-> new_exit vs vs' i x).
Proof.
  intros [_ E]. rewrite (E i). unfold new_exit. split.
  - destruct (nth_error vs' (N.to_nat i)) as [v'|] eqn:E1; [|discriminate]. destruct (nth_error vs (N.to_nat i)) as [v|] eqn:E2; [|discriminate].
    destruct (N.eqb_spec (v_exit_epoch v') (v_exit_epoch v)) as [Q|Q]; [discriminate|]. intros [= <-]. exists v, v'. auto.
  - intros (v & v' & -> & -> & <- & Q). destruct (N.eqb_spec (v_exit_epoch v') (v_exit_epoch v)); [congruence|reflexivity].
Qed.
Lemma patches_honest cs states vs tr churn : forall q before es, queued_exits cs states vs tr churn q before es ->
  forall patches, map fst patches = es -> (forall e, In e es -> tr < e) ->
  (forall e p, In (e, p) patches -> exists st', states (start_slot cs e) = Ok st' /\
     (if e =? tr then validator_exits p = [] else exit_changes (st_validators (hs_state st')) vs (validator_exits p))) ->
  honest_exits consecutive cs (balance_at vs) tr churn q before patches.
Proof.
  induction 1 as [|q before e es st' evs out q' H1 H2 H3 H4 H5 IH]; intros patches Hp Ht H.
  - destruct patches; [constructor|discriminate].
  - destruct patches as [|[e' p] patches]; [discriminate|]. cbn [map fst] in Hp. injection Hp as -> Hp.
    destruct (H e p (or_introl eq_refl)) as (st1 & Q1 & Q2). assert (st1 = st') as -> by congruence.
    destruct (N.eqb_spec e tr) as [Q|_]; [specialize (Ht e (or_introl eq_refl)); lia|].
    econstructor; [exact H2| | |].
    + intros i ex. rewrite <- H3. now apply new_exit_get.
    + destruct patches as [|[e1 p1] ps]; [exact I|]. cbn [map fst] in Hp. destruct es as [|x es]; [discriminate|]. injection Hp as -> _. exact H4.
    + apply IH; auto. * intros x Hx. apply Ht. now right. * intros x px Hx. apply H. now right.
Qed.

(** ** The pipeline, when the guest's own checks are known to pass *)
Lemma pipeline_moving :
  forall X bits cs pk_deserialize states headers blocks ch fuel cfg trusted e s us t ls bs st active h,
  let votes := chain_votes ls bs in
  let R := host_reader cs pk_deserialize states headers s votes in
  (* the chain *)
  next_finality cs ch trusted e s us t ls -> vote_window cs ch ls bs ->
  e <= epoch trusted + N.of_nat fuel -> (length us < fuel)%nat -> (e + 1 + N.of_nat fuel) * slots_per_epoch cs < 2 ^ 64 ->
  Forall (fun l => FFG.u64 (epoch (target l)) /\ within_bounds cfg cs trusted l /\ votes_for l (included bs) <> [] /\
                   link_evidence X cfg R l (votes_for l (included bs))) ls ->
  headers (root (finalized t)) = Ok (Some h) -> mroot (sha256 X) (header_tree (sha256 X) h) = root (finalized t) ->
  (* the trusted state and its block *)
  checkpoint_state X cs states trusted = Ok st -> hs_supported st = true ->
  blocks (hd_slot (hs_header st)) = Ok (Some (boundary_block X st)) ->
  sound_data X cs pk_deserialize headers trusted st [root (finalized t)] ->
  rd_active_validators R (epoch trusted) = Ok active -> keys_match pk_deserialize (st_validators (hs_state st)) active ->
  (* sizes *)
  epoch (current_justified s) + 1 + max_seed_lookahead cs < 2 ^ 64 -> 1 <= epoch trusted ->
  far_future_epoch cs = 2 ^ 64 - 1 -> sane_spec X cs -> sane_spec (on_platform X bits) cs -> shuffle_permutes X ->
  (* the guest *)
  (forall patches vals l,
     state_patches cs states (epoch trusted) (st_validators (hs_state st)) (recorded_reads X cs votes t) = Ok patches ->
     exact_registry (decoded pk_deserialize) (st_validators (hs_state st)) (epoch trusted) vals ->
     (forall fe, In fe l -> st_slot (hs_state st) / slots_per_epoch cs <= snd fe) ->
     validate_state_patches cs patches (epoch trusted) (state_info (sha256 X) (hs_state st)) (upds cs l vals) = Ok tt) ->
  (forall Rg, answers_faithfully cs pk_deserialize states headers trusted st s votes (root (finalized t)) Rg ->
     Forall (fun l => link_evidence (on_platform X bits) cfg Rg l (votes_for l (included bs))) ls) ->
  exists gi,
    prepare_input X cs pk_deserialize states headers blocks (collect_from cs ch fuel) cfg (epoch trusted) = Ok (gi, s, t, hd_slot h) /\
    exists r, into_reader (on_platform X bits) cs gi = Ok r /\ verify (on_platform X bits) cfg (guest_reader r) = Ok (t, hd_slot h).
Proof.
  intros X bits cs pkd states headers blocks ch fuel cfg trusted e s us t ls bs st active h votes R
    N W Hf1 Hf2 Hf3 Ev Hh Hr Ec Hsup Hblk D Hact K Hj Ht Hff S1 S2 Hsh Hval Hge.
  pose proof (nf_trusted _ _ _ _ _ _ _ _ N) as T.
  assert (Hspe : 0 < slots_per_epoch cs) by (destruct S1 as [S1 _]; lia).
  assert (C : collect_from cs ch fuel trusted = Ok (s, votes)).
  { unfold collect_from. now rewrite (host_new_ok cs ch trusted e s us t ls bs fuel). }
  pose proof (preflight_complete X cs cfg pkd states headers ch trusted e s us t ls bs h S1 Hsh N Ev Hh) as V.
  fold votes in V. fold R in V.
  assert (Tv : forall x, In x (target_epochs votes) -> exists l, In l ls /\ epoch (target l) = x).
  { intros x Hx'. unfold target_epochs in Hx'. apply in_map_iff in Hx' as (a & <- & Ha). unfold votes, chain_votes in Ha.
    apply in_flat_map in Ha as (l & Hl & Ha). exists l. split; [exact Hl|]. apply votes_for_link in Ha as <-. reflexivity. }
  assert (Mx : forall x, In x (target_epochs votes) -> exists st', states (start_slot cs x) = Ok st' /\
     nth_error (hs_randao_mixes st') (N.to_nat (seed_epoch_index cs x)) <> None).
  { intros x Hx'. destruct (Tv x Hx') as (l & Hl & <-). rewrite Forall_forall in Ev.
    destruct (Ev l Hl) as (_ & _ & _ & f & gvr & avl & av & mix & sh & sets & P & E). cbv zeta in E.
    destruct E as (_ & _ & _ & _ & _ & _ & _ & E & _). unfold R in E. cbn [host_reader rd_randao_mix rd_chain_spec] in E.
    apply bind_ok in E as (st' & E1 & E2). injection E2 as E2. unfold reader_state in E1. apply map_err_ok in E1.
    exists st'. split; [exact E1|congruence]. }
  destruct (C52_host_builds_input X cs pkd states headers trusted st R active votes t s h D S1 Ec Hsup eq_refl eq_refl Hact K Mx Hh Hr)
    as (gi & Gi).
  assert (P : prepare_input X cs pkd states headers blocks (collect_from cs ch fuel) cfg (epoch trusted) = Ok (gi, s, t, hd_slot h)).
  { unfold prepare_input. pose proof Ec as Ec'. unfold checkpoint_state, state_at_checkpoint in Ec'.
    apply bind_ok in Ec' as (st1 & E1 & E2). apply bind_ok in E2 as (u & E2 & E3). injection E3 as ->.
    rewrite E1. cbn [map_err bind]. rewrite Hblk. cbn [map_err bind ok_or].
    assert (A : bytes_eqb (hd_state_root (boundary_block X st)) (tree_root X (state_tree (sha256 X) (hs_state st))) = true)
      by (apply bytes_eqb_eq; reflexivity).
    rewrite A. cbn [assert_ bind].
    assert (Rt : mkCheckpoint (epoch trusted) (tree_root X (header_tree (sha256 X) (boundary_block X st))) = trusted).
    { unfold ensure in E2. destruct (bytes_eqb (root trusted) (boundary_root X st)) eqn:Eb; [|discriminate]. apply bytes_eqb_eq in Eb.
      change (tree_root X (header_tree (sha256 X) (boundary_block X st))) with (boundary_root X st). rewrite <- Eb. now destruct trusted. }
    rewrite Rt, C. cbn [map_err bind]. fold R. rewrite V. cbn [map_err bind]. rewrite Gi. cbn [bind].
    destruct (to_input_reads X cs pkd states headers trusted R _ gi (sd_hash _ _ _ _ _ _ _ D) (sd_keys _ _ _ _ _ _ _ D) (sd_decodes _ _ _ _ _ _ _ D) Gi)
      as (_ & _ & cst & _ & _ & _ & _ & _ & C1 & _ & C3 & _).
    unfold R in C1. cbn [host_reader rd_consensus_state] in C1. injection C1 as C1. now rewrite C3, <- C1. }
  exists gi. split; [exact P|].
  destruct (host_guest X bits cs pkd states headers trusted st R t gi s active votes D Ec eq_refl T eq_refl Hact K Hj S1 Hff Ht Gi)
    as (vals & r & G1 & G2 & G3).
  set (l := map _ _) in *.
  assert (Vp : validate_state_patches cs (gi_patches gi) (epoch trusted) (state_info (sha256 X) (hs_state st)) (upds cs l vals) = Ok tt).
  { apply to_input_patches in Gi as (st1 & Q1 & Q2). rewrite Ec in Q1. injection Q1 as <-. apply Hval; auto.
    intros fe Hf. apply in_map_iff in Hf as (x & <- & Hx). apply epoch_range_In in Hx. cbn [snd]. lia. }
  rewrite Vp in G2. cbn [bind] in G2. specialize (G3 Vp). exists r. split; [exact G2|].
  pose proof (Hge _ G3) as Eg. destruct G3 as [A1 A2 A3 A4 A5 A6 A7 A8].
  assert (L : links_with_votes ls (included bs) = map (fun l => (l, votes_for l (included bs))) ls).
  { apply all_have_votes. eapply Forall_impl; [|exact Ev]. intros l' Hl. apply Hl. }
  pose proof (grouping ls (included bs) (nf_nodup _ _ _ _ _ _ _ _ N)) as G. rewrite L in G.
  assert (M : map fst (map (fun l => (l, votes_for l (included bs))) ls) = ls) by (rewrite map_map; apply map_id).
  eapply verify_complete with (atts := votes) (st0 := s); [rewrite A1; exact S2|exact Hsh|exact A2|exact A3|exact G| | | |].
  - rewrite M. eapply Forall_impl; [|exact Ev]. intros l' Hl. apply Hl.
  - rewrite M. exact (nf_accepted _ _ _ _ _ _ _ _ N).
  - apply Forall_map. rewrite Forall_forall in *. intros l' Hl. cbn [fst snd]. destruct (Ev l' Hl) as (_ & E1 & _ & _).
    rewrite A1, T. split; [exact E1|]. now apply Eg.
  - destruct A8 as (h' & A8 & A9). rewrite Hh in A8. injection A8 as <-. exact A9.
Qed.

(** ** Sizes *)
Lemma exits_le vs' vs ex : exit_changes vs' vs ex -> (length ex <= length vs)%nat.
Proof.
  intros [S E]. rewrite <- (map_length fst ex). rewrite <- (seq_length (length vs) 0), <- (map_length N.of_nat).
  apply NoDup_incl_length; [now apply sorted_NoDup|]. intros i Hi. apply in_map_iff in Hi as ([j x] & <- & Hi). cbn [fst].
  apply bm_in_get in Hi; [|now apply bm_sorted_keys]. rewrite E in Hi. destruct (nth_error vs' (N.to_nat j)); [|discriminate].
  destruct (nth_error vs (N.to_nat j)) eqn:Q; [|discriminate]. assert (Q' : nth_error vs (N.to_nat j) <> None) by congruence. apply nth_error_Some in Q'.
  apply in_map_iff. exists (N.to_nat j). split; [apply N2Nat.id|]. apply in_seq. lia.
Qed.
Lemma exit_count_le gi k m : (length (gi_patches gi) <= k)%nat -> (forall e p, In (e, p) (gi_patches gi) -> (length (validator_exits p) <= m)%nat) ->
  exit_count gi <= N.of_nat (k * m).
Proof.
  intros H1 H2. unfold exit_count. assert (L : (length (flat_map (fun p => validator_exits (snd p)) (gi_patches gi)) <= length (gi_patches gi) * m)%nat).
  { clear H1. induction (gi_patches gi) as [|[e p] ps IH]; [cbn; lia|]. cbn [flat_map length snd]. rewrite app_length.
    pose proof (H2 e p (or_introl eq_refl)). assert (length (flat_map (fun p => validator_exits (snd p)) ps) <= length ps * m)%nat; [|lia].
    apply IH. intros e' p' Hp. apply (H2 e' p'). now right. }
  nia.
Qed.
Lemma window_length (l : list N) a k : NoDup l -> (forall x, In x l -> a < x <= a + N.of_nat k) -> (length l <= k)%nat.
Proof.
  intros Hn H. rewrite <- (seq_length k 0), <- (map_length (fun i => a + 1 + N.of_nat i)). apply NoDup_incl_length; [exact Hn|].
  intros x Hx. specialize (H x Hx). apply in_map_iff. exists (N.to_nat (x - a - 1)). split; [lia|]. apply in_seq. lia.
Qed.

Lemma churn_small n (reg : bmap ValidatorInfo) tr total : total < 4611686018427387904 -> weight reg <= total ->
  exit_churn (network_spec n) reg tr <= 140737488355328.
Proof.
  intros H W. unfold exit_churn, churn_limit. set (w := filter _ _).
  assert (W' : weight w <= weight reg) by apply weight_filter_le.
  replace (balance_of (network_spec n) w) with (N.max 1000000000 (weight w)) by (destruct n; reflexivity).
  replace (churn_limit_quotient (network_spec n)) with 65536 by (destruct n; reflexivity).
  assert (M : min_per_epoch_churn_limit_electra (network_spec n) <= 128000000000) by (destruct n; vm_compute; discriminate).
  assert (N.max 1000000000 (weight w) / 65536 < 70368744177664) by (apply N.div_lt_upper_bound; lia). lia.
Qed.
Lemma exact_weight' cs K vs cur m l : exact_registry K vs cur m -> weight (upds cs l m) <= all_balances vs.
Proof. intros E. rewrite weight_upds. eapply exact_weight; eauto. Qed.

Lemma room x : x + 2 ^ 20 < 2 ^ 32 -> x < 2 ^ 32.
Proof. change (2 ^ 32) with 4294967296. change (2 ^ 20) with 1048576. lia. Qed.
(** On a network, if the chain finalizes the trusted checkpoint and then the next one, and the votes
    for the links satisfy the consensus specification under the states of their target epochs, then
    the host prepares an input and the network's 32-bit program commits the chain's transition from
    the input's bytes, although balances, slashing flags, activations and exits change meanwhile,
    provided that the votes still reach the threshold under the trusted balances and that exits come
    from one queue with churn no larger than twice the trusted state's limit. *)
Lemma moving_core : forall n X0 C pk_deserialize states headers blocks ch fuel trusted e s us t ls bs st sta h,
  let X := with_swap_or_not X0 64 in let cs := network_spec n in let votes := chain_votes ls bs in
  (* a 64-bit host *)
  usize_bits X0 = 64 -> sane_codec C -> mainnet_limits C -> signatures_by_bytes X0 ->
  (* the chain finalizes the trusted checkpoint, and then the next one *)
  next_finality cs ch trusted e s us t ls -> vote_window cs ch ls bs ->
  e <= epoch trusted + N.of_nat fuel -> (length us < fuel)%nat -> (e + 1 + N.of_nat fuel) * 32 < 2 ^ 64 ->
  Forall (fun l => honest_votes n X pk_deserialize states trusted st l (votes_for l (included bs)) /\
                   trusted_support n X states st l (votes_for l (included bs))) ls ->
  headers (root (finalized t)) = Ok (Some h) -> mroot (sha256 X) (header_tree (sha256 X) h) = root (finalized t) ->
  (* the trusted state and its block, and the state at the start of the trusted epoch *)
  checkpoint_state X cs states trusted = Ok st -> hs_supported st = true ->
  blocks (hd_slot (hs_header st)) = Ok (Some (boundary_block X st)) ->
  sound_data X cs pk_deserialize headers trusted st [root (finalized t)] ->
  states (32 * epoch trusted) = Ok sta -> keys_decode pk_deserialize (st_validators (hs_state sta)) (epoch trusted) ->
  (* the later states *)
  moving_chain n states trusted st votes ->
  (* types and sizes *)
  typed_answers C cs pk_deserialize states votes -> wf_checkpoint (current_justified s) -> wf_checkpoint trusted ->
  epoch (current_justified s) < 2 ^ 63 -> 1 <= epoch trusted < 2 ^ 58 ->
  N.of_nat (length (st_validators (hs_state st))) < 2 ^ 22 -> all_balances (st_validators (hs_state st)) < 2 ^ 62 ->
  N.of_nat (length votes) < 2 ^ 17 ->
  exists gi,
    prepare_input X cs pk_deserialize states headers blocks (collect_from cs ch fuel) (config_for n) (epoch trusted) = Ok (gi, s, t, hd_slot h) /\
    N.of_nat (length (encode_input C gi)) + 2 ^ 20 < 2 ^ 32 /\ wf_input C 32 gi /\ gi_consensus_state gi = s /\
    forall bits, bits = 32 \/ bits = 64 ->
      exists r, into_reader (on_platform X bits) cs gi = Ok r /\ verify (on_platform X bits) (config_for n) (guest_reader r) = Ok (t, hd_slot h).
Proof.
  intros n X0 C pkd states headers blocks ch fuel trusted e s us t ls bs st sta h X cs votes U S Ml Inj Nf Vw F1 F2 F3 Hv Hh Hr Ec Hsup Hblk D
    Hsta Ksta Mc T W1 W2 Z1 Z2 Z3' Z4 Z5.
  change (2 ^ 22) with 4194304 in Z3'. change (2 ^ 17) with 131072 in Z5.
  assert (Z3 : N.of_nat (length (st_validators (hs_state st))) < 2 ^ 32) by (change (2 ^ 32) with 4294967296; lia).
  assert (E32 : slots_per_epoch cs = 32) by (unfold cs; destruct n; reflexivity).
  assert (EX : on_platform X 64 = X) by (unfold on_platform, X, with_swap_or_not; cbn; now rewrite U).
  destruct (C65_parameters n X) as (P32 & P64 & Pff & _). rewrite EX in P64. fold cs in P32, P64, Pff.
  pose proof (nf_trusted _ _ _ _ _ _ _ _ Nf) as Tr.
  assert (M4 : max_seed_lookahead cs = 4) by (unfold cs; destruct n; reflexivity).
  change (2 ^ 63) with 9223372036854775808 in Z1. change (2 ^ 58) with 288230376151711744 in Z2.
  assert (Es : forall x, x <= epoch trusted + 4 -> start_slot cs x = 32 * x).
  { intros x Hx'. unfold start_slot, sat_mul. rewrite E32. change u64_max with 18446744073709551615. lia. }
  change (2 ^ 62) with 4611686018427387904 in Z4.
  destruct (active_from_decodable pkd sta (epoch trusted) Ksta) as [active Ha].
  set (R := host_reader cs pkd states headers s votes).
  assert (Tv : forall x, In x (target_epochs votes) -> exists l, In l ls /\ epoch (target l) = x).
  { intros x Hx'. unfold target_epochs in Hx'. apply in_map_iff in Hx' as (a & <- & Hin). unfold votes, chain_votes in Hin.
    apply in_flat_map in Hin as (l & Hl & Hin). exists l. split; [exact Hl|]. apply votes_for_link in Hin as <-. reflexivity. }
  rewrite Forall_forall in Hv.
  assert (Vt : forall l, In l ls -> In (epoch (target l)) (target_epochs votes)).
  { intros l Hl. pose proof (hv_some _ _ _ _ _ _ _ _ (proj1 (Hv l Hl))) as Q. destruct (votes_for l (included bs)) as [|a r] eqn:Ea; [easy|].
    assert (In a (votes_for l (included bs))) as Hin by (rewrite Ea; now left).
    unfold target_epochs. apply in_map_iff. exists a. split; [now apply votes_for_link in Hin as <-|]. apply in_flat_map. eauto. }
  assert (Tb : forall x, In x (target_epochs votes) -> epoch trusted < x <= epoch trusted + 4).
  { intros x Hx. destruct (Tv x Hx) as (l & Hl & <-). split; [|apply (hv_epoch _ _ _ _ _ _ _ _ (proj1 (Hv l Hl)))].
    rewrite <- Tr. exact (accepted_targets _ _ _ _ (nf_accepted _ _ _ _ _ _ _ _ Nf) Hl). }
  assert (Hmov : forall l, In l ls -> forall st', states (32 * epoch (target l)) = Ok st' ->
     registry_moves (epoch trusted + 4) (st_validators (hs_state st)) (st_validators (hs_state st'))).
  { intros l Hl st' Hs. apply (mc_registry _ _ _ _ _ Mc (epoch (target l))); auto. }
  assert (Core : forall bits, bits = 32 \/ bits = 64 -> exists gi,
    prepare_input X cs pkd states headers blocks (collect_from cs ch fuel) (config_for n) (epoch trusted) = Ok (gi, s, t, hd_slot h) /\
    exists r, into_reader (on_platform X bits) cs gi = Ok r /\ verify (on_platform X bits) (config_for n) (guest_reader r) = Ok (t, hd_slot h)).
  { intros bits Hb. assert (Pb : sane_spec (on_platform X bits) cs) by (destruct Hb as [->| ->]; [exact P32|now rewrite EX]).
  apply (pipeline_moving X bits cs pkd states headers blocks ch fuel (config_for n) trusted e s us t ls bs st active h); auto.
  - now rewrite E32.
  - apply Forall_forall. intros l Hl. destruct (Hv l Hl) as [[V1 V2 (st' & mix & V3 & V4 & V5 & V6 & V7 & V8 & V9 & V10 & V11)] _].
    split; [unfold FFG.u64; change (2 ^ 64) with 18446744073709551616; lia|].
    split; [split; [replace (epoch_lookahead_limit (config_for n)) with 4 by (destruct n; reflexivity); lia|apply C65_supported; lia]|].
    split; [exact V1|]. fold votes. fold R.
    destruct (active_from_decodable pkd st' (epoch (target l)) V5) as [avl Hl'].
    assert (Rs : reader_state cs states (epoch (target l)) = Ok st') by (unfold reader_state; rewrite Es, V3 by lia; reflexivity).
    assert (G1 : reader_state cs states (epoch (finalized s)) = Ok sta) by (unfold reader_state; rewrite Tr, Es, Hsta by lia; reflexivity).
    assert (G2 : st_genesis_validators_root (hs_state sta) = st_genesis_validators_root (hs_state st)) by exact (mc_genesis _ _ _ _ _ Mc _ _ Hsta).
    rewrite <- EX. eapply (means_evidence n X0 64 R l _ (hs_state st') mix avl); auto.
    + unfold R. cbn [host_reader rd_fork]. rewrite Rs. cbn [bind]. f_equal. exact (mc_fork _ _ _ _ _ Mc _ st' (Vt l Hl) V3).
    + unfold R. cbn [host_reader rd_genesis_validators_root]. rewrite G1. cbn [bind]. now rewrite G2, V4.
    + unfold R. cbn [host_reader rd_active_validators]. rewrite Rs. cbn [bind]. exact Hl'.
    + apply host_active with (pkd := pkd); [apply D|exact Hl'].
    + unfold R. cbn [host_reader rd_randao_mix]. rewrite Rs. cbn [bind]. now rewrite V6.
    + apply V2.
    + change (2 ^ 64) with 18446744073709551616. lia.
    + intros a Hin. now apply votes_for_link in Hin.
  - cbn [host_reader rd_active_validators]. unfold reader_state. rewrite Es, Hsta by lia. exact Ha.
  - assert (Hact' : rd_active_validators R (epoch trusted) = Ok active)
      by (cbn [R host_reader rd_active_validators]; unfold reader_state; rewrite Es, Hsta by lia; exact Ha).
    eapply host_keys_match; [|exact Hact']. intros st' i v v' Hs. rewrite Es in Hs by lia. apply (mc_keys _ _ _ _ _ Mc _ _ _ _ Hs).
  - rewrite M4. change (2 ^ 64) with 18446744073709551616. lia.
  - lia.
  - apply C68_shuffle_permutes.
  - (* the guest's check of the exits *)
    intros patches vals l Sp Er Hl. apply recorded_patches in Sp as (Q0 & Q2 & Q3); [|exact P64].
    destruct (mc_exits _ _ _ _ _ Mc) as (q & es & X1 & X2 & X3 & X4 & X5).
    assert (Em : map fst patches = es).
    { apply sorted_ext; [now apply bm_sorted_keys|exact X3|]. intros x. now rewrite Q2, X4. }
    assert (Bf : balances_fit cs (st_validators (hs_state st))).
    { assert (B1 : churn_limit_quotient cs <> 0 /\ effective_balance_increment cs <> 0 /\
        min_per_epoch_churn_limit_electra cs <= 2 ^ 40 /\ effective_balance_increment cs <= 2 ^ 40).
      { unfold cs. destruct n; (split; [discriminate|split; [discriminate|split; vm_compute; discriminate]]). }
      destruct B1 as (B1 & B2 & B3 & B4). change (2 ^ 40) with 1099511627776 in *. split; [exact B1|]. split; [exact B2|].
      change (2 ^ 64) with 18446744073709551616. lia. }
    assert (Nm : exit_numbers_fit cs (upds cs l vals) (epoch trusted)).
    { eapply balances_numbers; [exact Bf|exact Er|]. unfold activation_exit_epoch. rewrite M4. change (2 ^ 64) with 18446744073709551616. lia. }
    destruct ls as [|l0 ls'].
    { apply C54_no_exits_accepted; [exact Nm|]. intros x p Hp. apply (in_map fst) in Hp. apply Q2 in Hp. contradiction. }
    assert (Se : epoch trusted <= st_slot (hs_state st) / slots_per_epoch cs + 4).
    { pose proof (mc_epochs _ _ _ _ _ Mc _ (Vt l0 (or_introl eq_refl))) as B. pose proof (Tb _ (Vt l0 (or_introl eq_refl))). rewrite E32. lia. }
    assert (Ch : exit_churn cs (upds cs l vals) (epoch trusted) = doubled_churn n (st_validators (hs_state st)) (epoch trusted)).
    { eapply (churn_known n X pkd); eauto; [apply D|lia]. }
    eapply (C54_honest_exits_accepted cs (balance_at (st_validators (hs_state st))) (epoch trusted) patches _ _ q); try rewrite Ch.
    + split; [now apply bm_sorted_keys|]. apply Forall_forall. intros [x p] Hp. cbn [snd].
      destruct (Q3 x p Hp) as (stx & mix & S1 & _ & _ & S4). destruct (x =? epoch trusted); [rewrite S4; constructor|apply S4].
    + lia.
    + exact Nm.
    + rewrite X1. cbn [state_info si_earliest_exit_epoch]. lia.
    + exact X2.
    + intros x p Hp. apply (in_map fst) in Hp. apply Q2 in Hp. apply Tb in Hp. cbn [fst] in Hp. lia.
    + eapply patches_honest; [exact X5|exact Em| |].
      * intros x Hx. apply X4 in Hx. apply Tb in Hx. lia.
      * intros x p Hp. destruct (Q3 x p Hp) as (stx & mix & S1 & _ & _ & S4). exists stx. auto.
    + intros x p i ex Hp Hi. assert (Tx : In x (target_epochs votes)) by (apply Q2; now apply (in_map fst) in Hp).
      destruct (Q3 x p Hp) as (stx & mix & S1 & _ & _ & S4). pose proof (Tb x Tx) as Bx. destruct (N.eqb_spec x (epoch trusted)); [lia|].
      rewrite Es in S1 by lia. apply bm_in_get in Hi; [|apply bm_sorted_keys, S4]. apply (new_exit_get _ _ _ _ _ S4) in Hi.
      pose proof Hi as (v & v' & N1 & _). destruct (mc_new _ _ _ _ _ Mc x stx i ex v Tx S1 Hi N1) as [N2 N3]. split.
      * assert (Cb : doubled_churn n (st_validators (hs_state st)) (epoch trusted) <= 140737488355328).
        { rewrite <- Ch. eapply (churn_small n); [exact Z4|exact (exact_weight' _ _ _ _ _ _ Er)]. }
        unfold activation_exit_epoch. rewrite M4. change (2 ^ 64) with 18446744073709551616. nia.
      * destruct Er as [_ Er]. specialize (Er i). rewrite N1 in Er. rewrite bm_get_upd.
        destruct (bm_get vals i) as [vi|]; cbn [option_map]; [|rewrite N2 in Er; change (2 ^ 64) with 18446744073709551616 in Er; lia].
        destruct Er as (_ & pk & _ & ->). destruct (upd1_fields cs l (record_of v pk)) as (_ & U2 & _ & U4).
        eexists. split; [reflexivity|]. unfold record_of in *. rewrite U2, U4. cbn [effective_balance exit_epoch]. rewrite N2, Pff.
        split; [reflexivity|]. unfold balance_at. now rewrite N1.
  - (* the guest's evidence *)
    intros Rg [A1 A2 A3 A4 A5 A6 A7 A8]. apply Forall_forall. intros l Hl.
    destruct (Hv l Hl) as [[V1 V2 (st' & mix & V3 & V4 & V5 & V6 & V7 & V8 & V9 & V10 & V11)] Sup].
    pose proof (Hmov l Hl st' V3) as Mv. destruct V2 as [V2 V2'].
    assert (Ti : In (epoch (target l)) (target_epochs votes)) by auto.
    destruct (A6 (epoch (target l))) as (avl & Q1 & Q2).
    { rewrite M4. pose proof (Tb _ Ti). lia. }
    { rewrite E32, M4. now apply (mc_epochs _ _ _ _ _ Mc). }
    destruct (A7 _ Ti) as (st1 & mix1 & B1 & B2 & B3). rewrite Es, V3 in B1 by exact V2'. injection B1 as <-.
    assert (Q : seed_epoch_index cs (epoch (target l)) = (epoch (target l) + 65534) mod 65536).
    { unfold seed_epoch_index, cs. destruct n; (replace (epoch (target l) + _ - _ - 1) with (epoch (target l) + 65534); [reflexivity|]);
      unfold network_spec, mainnet_spec, sepolia_spec, preset; cbn [epochs_per_historical_vector min_seed_lookahead]; lia. }
    rewrite Q in B2, B3. assert (mix1 = mix) as -> by congruence.
    eapply (means_evidence n X0 bits Rg l _ (hs_state st) mix avl); auto.
    + apply (voters_lists X pkd); [apply D|exact Q2].
    + change (2 ^ 64) with 18446744073709551616. lia.
    + rewrite <- (moves_active _ _ _ _ Mv V2'). exact V8.
    + intros a Hin. now apply votes_for_link in Hin.
    + apply (moves_justified X n (hs_state st) (hs_state st') mix l _ _ Mv V2' V4 V10). exact (Sup st' mix V3 V6).
    + rewrite Forall_forall in V11 |- *. intros a Hin. apply (moves_includable X _ _ _ _ _ Mv); [|now apply V11].
      apply votes_for_link in Hin as <-. exact V2'. }
  destruct (Core 32 (or_introl eq_refl)) as (gi & P & _).
  exists gi. split; [exact P|].
    pose proof (collect_from_ok cs ch fuel) as Hco.
    destruct (prepare_input_inv _ _ _ _ _ _ _ _ _ _ _ _ _ Hco P) as (P1 & _ & _ & P2 & _).
    assert (Va : gi_attestations gi = votes).
    { assert (Ha' : collect_from cs ch fuel trusted = Ok (s, gi_attestations gi)) by (rewrite <- Tr; eapply prepare_input_votes; eauto).
      unfold collect_from in Ha'. rewrite (C57_host_collects cs ch trusted e s us t ls bs fuel) in Ha'; auto; rewrite ?E32; auto; [|lia].
      now injection Ha' as <-. }
    assert (Ex : exit_count gi <= N.of_nat (4 * length (st_validators (hs_state st)))).
    { apply to_input_patches in P2 as (st1 & Q1 & Q2). rewrite Tr, Ec in Q1. injection Q1 as <-. rewrite Va in Q2.
      apply recorded_patches in Q2 as (Q0 & Q2 & Q3); [|exact P64]. apply exit_count_le.
      - rewrite <- (map_length fst). apply (window_length _ (epoch trusted)); [now apply bm_sorted_NoDup|]. intros x Hx. apply Tb. now apply Q2.
      - intros x p Hp. destruct (Q3 x p Hp) as (stx & mix & S1 & _ & _ & S4). rewrite Tr in S4. destruct (x =? epoch trusted); [rewrite S4; cbn; lia|].
        eapply exits_le; eauto. }
    assert (L : N.of_nat (length (encode_input C gi)) + 2 ^ 20 < 2 ^ 32).
    { eapply N.le_lt_trans.
      - apply N.add_le_mono_r. eapply (C70_input_size C X cs pkd states headers blocks (collect_from cs ch fuel) (config_for n) (epoch trusted) gi s t (hd_slot h) st); auto; rewrite ?Tr, ?Va; auto.
      - rewrite Va. rewrite Nat2N.inj_mul in Ex. change (N.of_nat 4) with 4 in Ex. change (2 ^ 32) with 4294967296. change (2 ^ 20) with 1048576. clear - Ex Z5 Z3'. lia. }
    pose proof (room _ L) as L0.
    assert (W : wf_input C 32 gi).
    { eapply (C70_input_read C X cs pkd states headers blocks (collect_from cs ch fuel) (config_for n) (epoch trusted) gi s t (hd_slot h) st); auto; rewrite ?Tr, ?Va; auto. }
    split; [exact L|]. split; [exact W|]. split; [exact P1|]. intros bits Hb. destruct (Core bits Hb) as (gi' & P' & Q').
    rewrite P in P'. injection P' as <-. exact Q'.
Qed.
Theorem C71_moving_chain : forall n X0 C pk_deserialize states headers blocks ch fuel trusted e s us t ls bs st sta h,
  let X := with_swap_or_not X0 64 in let cs := network_spec n in let votes := chain_votes ls bs in
  (* a 64-bit host *)
  usize_bits X0 = 64 -> sane_codec C -> mainnet_limits C -> signatures_by_bytes X0 ->
  (* the chain finalizes the trusted checkpoint, and then the next one *)
  next_finality cs ch trusted e s us t ls -> vote_window cs ch ls bs ->
  e <= epoch trusted + N.of_nat fuel -> (length us < fuel)%nat -> (e + 1 + N.of_nat fuel) * 32 < 2 ^ 64 ->
  Forall (fun l => honest_votes n X pk_deserialize states trusted st l (votes_for l (included bs)) /\
                   trusted_support n X states st l (votes_for l (included bs))) ls ->
  headers (root (finalized t)) = Ok (Some h) -> mroot (sha256 X) (header_tree (sha256 X) h) = root (finalized t) ->
  (* the trusted state and its block, and the state at the start of the trusted epoch *)
  checkpoint_state X cs states trusted = Ok st -> hs_supported st = true ->
  blocks (hd_slot (hs_header st)) = Ok (Some (boundary_block X st)) ->
  sound_data X cs pk_deserialize headers trusted st [root (finalized t)] ->
  states (32 * epoch trusted) = Ok sta -> keys_decode pk_deserialize (st_validators (hs_state sta)) (epoch trusted) ->
  (* the later states *)
  moving_chain n states trusted st votes ->
  (* types and sizes *)
  typed_answers C cs pk_deserialize states votes -> wf_checkpoint (current_justified s) -> wf_checkpoint trusted ->
  epoch (current_justified s) < 2 ^ 63 -> 1 <= epoch trusted < 2 ^ 58 ->
  N.of_nat (length (st_validators (hs_state st))) < 2 ^ 22 -> all_balances (st_validators (hs_state st)) < 2 ^ 62 ->
  N.of_nat (length votes) < 2 ^ 17 ->
  exists gi,
    prepare_input X cs pk_deserialize states headers blocks (collect_from cs ch fuel) (config_for n) (epoch trusted) = Ok (gi, s, t, hd_slot h) /\
    guest_for n (with_swap_or_not (on_platform X0 32) 64) (decode_input C 32) (encode_input_stdin (encode_input C gi))
    = Ok (journal_encode s t (hd_slot h)).
Proof.
  intros n X0 C pkd states headers blocks ch fuel trusted e s us t ls bs st sta h X cs votes U S Ml Inj Nf Vw F1 F2 F3 Hv Hh Hr Ec Hsup Hblk D
    Hsta Ksta Mc T W1 W2 Z1 Z2 Z3 Z4 Z5.
  destruct (moving_core n X0 C pkd states headers blocks ch fuel trusted e s us t ls bs st sta h) as (gi & P & L & W & P1 & Q); auto. apply room in L.
  exists gi. split; [exact P|]. destruct (Q 32 (or_introl eq_refl)) as (r & G1 & G2).
  rewrite C65_same_parameters, C44_guest_input by exact L. fold cs.
  rewrite C68_guest_platform by (rewrite ?U; lia). fold X. rewrite <- P1. eapply entry_of_verify; eauto.
  rewrite <- (app_nil_r (encode_input C gi)). apply C63_round_trip; auto. lia.
Qed.

(** ** A chain with such changes *)
(** The chain of C70_nonvacuous, except that while the votes are collected the one validator that does
    not vote is slashed, loses balance and is assigned an exit epoch, validator 5 exits voluntarily,
    validator 2 gains balance, and a new validator awaits activation. *)
Definition m_out (n : Network) : N := nth 7 (y_order n) 0.
Definition m_vs (n : Network) : list Validator :=
  map (fun i => mkValidator (g_key i ++ repeat x00 47) (toy_root i)
                  (if i =? m_out n then 31000000000 else if i =? 2 then 33000000000 else 32000000000) (i =? m_out n) 0 0
                  (if (i =? m_out n) || (i =? 5) then w_trust n + 6 else g_far) g_far) [0; 1; 2; 3; 4; 5; 6; 7]
  ++ [mkValidator (g_key 8 ++ repeat x00 47) (toy_root 8) 32000000000 false g_far g_far g_far g_far].
Definition m_hstate (n : Network) (e : N) : HState :=
  mkHState true (mkState false toy_gvr (32 * e) (fork_at_epoch (network_spec n) e) (m_vs n)
    (mkCheckpoint (w_trust n - 2) (toy_root 7)) 0 0 (fun k => MLeaf (toy_root k)))
    (mkHeader (32 * e) 3 (toy_root 17) (toy_root 0) (MLeaf (toy_root 1818))) z_mixes.
Definition m_states (n : Network) (slot : Slot) : answer HState :=
  if slot =? 32 * (w_trust n + 2) then Ok (m_hstate n (w_trust n + 2)) else z_states n slot.
Lemma m_here n e : e <= w_trust n -> m_states n (32 * e) = z_states n (32 * e).
Proof. intros H. unfold m_states. destruct (N.eqb_spec (32 * e) (32 * (w_trust n + 2))); [lia|reflexivity]. Qed.
Lemma m_later n : m_states n (32 * (w_trust n + 2)) = Ok (m_hstate n (w_trust n + 2)).
Proof. unfold m_states. now rewrite N.eqb_refl. Qed.
Lemma m_moves n : registry_moves (w_trust n + 4) w_vs (m_vs n).
Proof.
  split; [destruct n; vm_compute; repeat constructor|]. intros i v' H.
  do 9 (destruct i as [|i]; [destruct n; injection H as <-; vm_compute; auto; (split; [reflexivity|split; [now left|]]; first [now left|right; split; reflexivity])|]).
  destruct n; destruct i; discriminate H.
Qed.
Lemma m_new n i ex : new_exit w_vs (m_vs n) i ex <-> In (i, ex) ([] ++ [(m_out n, w_trust n + 6); (5, w_trust n + 6)]).
Proof.
  split.
  - intros (v & v' & H1 & H2 & H3 & H4). assert (L : i < 8).
    { assert (Q : nth_error w_vs (N.to_nat i) <> None) by congruence. apply nth_error_Some in Q. change (length w_vs) with 8%nat in Q. lia. }
    assert (I : In i [0; 1; 2; 3; 4; 5; 6; 7]) by (cbn; lia).
    destruct n; repeat destruct I as [<-|I]; try contradiction; injection H1 as <-; injection H2 as <-; cbn in H3, H4; subst ex;
      first [now left|now (right; left)|now destruct H4].
  - intros [[= <- <-]|[[= <- <-]|[]]]; destruct n; eexists; eexists; (split; [reflexivity|split; [reflexivity|split; [reflexivity|discriminate]]]).
Qed.
Lemma m_active n : active_indices (m_vs n) (w_trust n + 2) = active_indices w_vs (w_trust n + 2).
Proof. apply (moves_active (w_trust n + 4)); [apply m_moves|lia]. Qed.
Lemma m_attesters n k : In k [0; 1; 2; 3; 4; 5; 6] ->
  attesting_indices z_X (m_vs n) (toy_root 10) (y_att n (y_order n) k) = [nth (N.to_nat k) (y_order n) 0].
Proof. intros H. rewrite <- (z_attesters n k H). apply moves_attesting. apply m_active. Qed.
Lemma m_justified n : justified_by z_X n (hs_state (m_hstate n (w_trust n + 2))) (toy_root 10) (w_link n) (z_atts n).
Proof.
  destruct (z_justified n) as [J _]. cbn [z_state st_validators st_genesis_validators_root] in J.
  split; cbn [m_hstate hs_state st_validators st_genesis_validators_root].
  - apply z_all. intros k Hk. rewrite Forall_forall in J. specialize (J (y_att n (y_order n) k)). unfold vote_valid in J |- *.
    cbn [m_hstate hs_state z_state st_validators st_genesis_validators_root] in J |- *. rewrite z_attesters in J by exact Hk. rewrite m_attesters by exact Hk.
    destruct J as (V1 & V2 & V3 & V4 & V5 & V6 & keys & V7 & V8).
    { apply in_map_iff. exists k. auto. }
    split; [exact V1|]. split; [exact V2|]. split; [exact V3|]. split; [exact V4|]. split; [exact V5|]. split; [exact V6|]. exists keys. split; [|exact V8].
    rewrite V7. cbn [map]. f_equal. destruct n; repeat destruct Hk as [<-|Hk]; try contradiction; reflexivity.
  - assert (V : voters z_X (m_vs n) (toy_root 10) (epoch (target (w_link n))) (z_atts n) =
      filter (fun i => existsb (fun k => i =? nth (N.to_nat k) (y_order n) 0) [0; 1; 2; 3; 4; 5; 6] && negb (is_slashed (m_vs n) i)) (active_indices (m_vs n) (w_trust n + 2))).
    { unfold voters. apply filter_ext. intros i. f_equal. unfold z_atts. cbn [map existsb]. rewrite !m_attesters by (cbn [In]; tauto).
      cbn [mem existsb]. now rewrite !orb_false_r. }
    rewrite V. destruct n; vm_compute; discriminate.
Qed.
Lemma m_includable n : Forall (includable z_X (m_vs n) (toy_root 10)) (z_atts n).
Proof.
  pose proof (z_includable n) as I. rewrite Forall_forall in I |- *. intros a Ha. specialize (I a Ha). unfold includable in I |- *.
  replace (epoch (ad_target (att_data a))) with (w_trust n + 2) in I |- * by (apply in_map_iff in Ha as (k & <- & _); reflexivity).
  now rewrite m_active.
Qed.
Lemma m_keys n e : keys_decode h_deserialize (m_vs n) e.
Proof. apply h_keys. repeat (apply Forall_cons; [eexists; vm_compute; reflexivity|]). constructor. Qed.
Lemma m_honest n : Forall (fun l => honest_votes n z_X h_deserialize (m_states n) (finalized (w_pre n)) (z_hstate n (w_trust n)) l
    (votes_for l (included (z_bs n))) /\ trusted_support n z_X (m_states n) (z_hstate n (w_trust n)) l (votes_for l (included (z_bs n)))) [w_link n].
Proof.
  constructor; [|constructor]. rewrite z_votes. split; [constructor|].
  - discriminate.
  - destruct n; split; vm_compute; discriminate.
  - exists (m_hstate n (w_trust n + 2)), (toy_root 10).
    change (epoch (target (w_link n))) with (w_trust n + 2). split; [apply m_later|]. split; [reflexivity|]. split; [apply m_keys|].
    split. { cbn [m_hstate hs_randao_mixes]. apply z_mix. apply N.mod_lt. discriminate. }
    split; [destruct n; vm_compute; reflexivity|]. split; [destruct n; vm_compute; reflexivity|]. split; [destruct n; vm_compute; reflexivity|].
    split; [apply m_justified|apply m_includable].
  - intros st' mix E Hm. change (epoch (target (w_link n))) with (w_trust n + 2) in *. rewrite m_later in E. injection E as <-.
    cbn [m_hstate hs_randao_mixes] in Hm. rewrite z_mix in Hm by (apply N.mod_lt; discriminate). injection Hm as <-.
    exact (proj2 (z_justified n)).
Qed.
Lemma m_moving n : moving_chain n (m_states n) (finalized (w_pre n)) (z_hstate n (w_trust n)) (z_atts n).
Proof.
  assert (T : 100 < w_trust n) by (destruct n; vm_compute; reflexivity).
  assert (Hl : forall e st', In e (target_epochs (z_atts n)) -> m_states n (32 * e) = Ok st' -> e = w_trust n + 2 /\ st' = m_hstate n (w_trust n + 2)).
  { intros e st' He E. apply z_targets in He as ->. rewrite m_later in E. injection E as <-. auto. }
  constructor.
  - intros s st' E. unfold m_states, z_states in E. repeat (destruct (s =? _); [injection E as <-; reflexivity|]). discriminate E.
  - intros st' i v v' E Hv Hv'. cbn [w_pre finalized epoch] in E. rewrite m_here, z_here in E by lia. injection E as <-. congruence.
  - intros e He. apply z_targets in He as ->. destruct n; vm_compute; discriminate.
  - intros e st' He E. apply Hl in E as [-> ->]; [|exact He]. reflexivity.
  - intros e st' He E. apply Hl in E as [-> ->]; [|exact He]. apply m_moves.
  - intros e st' i ex v He E Hn Hv. apply Hl in E as [-> ->]; [|exact He].
    change (st_validators (hs_state (z_hstate n (w_trust n)))) with w_vs in *.
    change (st_validators (hs_state (m_hstate n (w_trust n + 2)))) with (m_vs n) in Hn.
    split; [apply nth_error_In in Hv; apply in_map_iff in Hv as (j & <- & _); reflexivity|].
    apply m_new in Hn as [[= <- <-]|[[= <- <-]|[]]]; cbn [w_pre finalized epoch]; lia.
  - exists (mkQueue 0 0), [w_trust n + 2].
    change (st_validators (hs_state (z_hstate n (w_trust n)))) with w_vs. cbn [w_pre finalized epoch].
    split; [reflexivity|]. split; [apply N.le_0_l|]. split; [repeat constructor|].
    split. { intros e. split; [intros [<-|[]]; now left|intros He; left; symmetry; now apply z_targets]. }
    assert (Q : exists evs q', queue_run (network_spec n) (balance_at w_vs) (w_trust n) (doubled_churn n w_vs (w_trust n)) (mkQueue 0 0) evs
      [(m_out n, w_trust n + 6); (5, w_trust n + 6)] q').
    { exists [Exit (m_out n) (w_trust n + 1) 256000000000; Exit 5 (w_trust n + 1) 256000000000]. eexists.
      set (q1 := assign (network_spec n) (w_trust n + 1) 256000000000 (balance_at w_vs (m_out n)) (mkQueue 0 0)).
      replace [(m_out n, w_trust n + 6); (5, w_trust n + 6)] with
        [(m_out n, q_epoch q1); (5, q_epoch (assign (network_spec n) (w_trust n + 1) 256000000000 (balance_at w_vs 5) q1))] by (destruct n; vm_compute; reflexivity).
      apply qr_exit; [lia|split; [reflexivity|destruct n; vm_compute; discriminate]|].
      apply qr_exit; [lia|split; [reflexivity|destruct n; vm_compute; discriminate]|apply qr_nil]. }
    destruct Q as (evs & q' & Q).
    eapply qe_cons; [rewrite z_start by lia; apply m_later|exact Q|apply m_new|exact I|apply qe_nil].
Qed.
Lemma m_checkpoint n : checkpoint_state z_X (network_spec n) (m_states n) (finalized (w_pre n)) = Ok (z_hstate n (w_trust n)).
Proof.
  rewrite <- z_checkpoint. unfold checkpoint_state, state_at_checkpoint, state_at_epoch_boundary, state_at_epoch. cbn [w_pre finalized epoch root].
  rewrite z_start, z_here, m_here, z_here by lia. cbn [bind]. cbn [z_hstate hs_header hs_state z_state hd_slot st_slot]. rewrite N.eqb_refl. reflexivity.
Qed.
Lemma m_typed n : typed_answers n_codec (network_spec n) h_deserialize (m_states n) (z_atts n).
Proof.
  destruct (z_typed n) as [T1 _ _ T4]. constructor; [exact T1| | |exact T4].
  - intros e st m He E Hm. apply z_targets in He as ->. rewrite z_start, m_later in E by lia. injection E as <-.
    cbn [m_hstate hs_randao_mixes] in Hm. apply repeat_spec in Hm as ->. reflexivity.
  - intros e st v He E Hv. apply z_targets in He as ->. rewrite z_start, m_later in E by lia. injection E as <-.
    cbn [m_hstate hs_state st_validators] in Hv. apply in_app_or in Hv as [Hv|[<-|[]]]; [|vm_compute; reflexivity].
    apply in_map_iff in Hv as (i & <- & _). cbn [v_exit_epoch]. destruct ((i =? m_out n) || (i =? 5)); destruct n; vm_compute; reflexivity.
Qed.
(** The input for this chain is accepted. *)
Example C71_nonvacuous n : exists gi,
  prepare_input z_X (network_spec n) h_deserialize (m_states n) (z_headers n) (z_blocks n) (collect_from (network_spec n) (z_chain n) 5) (config_for n) (w_trust n)
  = Ok (gi, w_pre n, w_post n, 32 * w_trust n + 32) /\
  guest_for n (with_swap_or_not (on_platform z_X0 32) 64) (decode_input n_codec 32) (encode_input_stdin (encode_input n_codec gi))
  = Ok (journal_encode (w_pre n) (w_post n) (32 * w_trust n + 32)).
Proof.
  destruct (C71_moving_chain n z_X0 n_codec h_deserialize (m_states n) (z_headers n) (z_blocks n) (z_chain n) 5 (finalized (w_pre n)) (w_trust n + 2)
    (w_pre n) [] (w_post n) [w_link n] (z_bs n) (z_hstate n (w_trust n)) (z_hstate n (w_trust n)) (w_header1 n)) as (gi & P & G); rewrite ?z_chain_votes.
  - reflexivity.
  - exact n_sane.
  - repeat split.
  - exact z_bytes.
  - apply z_next.
  - apply z_window.
  - cbn [w_pre finalized epoch]. lia.
  - cbn [length]. lia.
  - destruct n; vm_compute; reflexivity.
  - apply m_honest.
  - unfold z_headers. cbn [w_post finalized root]. replace (bytes_eqb (w_root1 n) (w_root1 n)) with true; [reflexivity|]. symmetry. now apply bytes_eqb_eq.
  - destruct n; vm_compute; reflexivity.
  - apply m_checkpoint.
  - reflexivity.
  - fold z_X. rewrite z_block. unfold z_blocks. cbn [z_hstate hs_header hd_slot]. now rewrite N.eqb_refl.
  - apply z_sound.
  - cbn [w_pre finalized epoch]. rewrite m_here by lia. apply z_here.
  - apply z_keys.
  - apply m_moving.
  - apply m_typed.
  - destruct n; split; vm_compute; reflexivity.
  - destruct n; split; vm_compute; reflexivity.
  - destruct n; vm_compute; reflexivity.
  - destruct n; split; vm_compute; try reflexivity; discriminate.
  - vm_compute. reflexivity.
  - vm_compute. reflexivity.
  - destruct n; vm_compute; reflexivity.
  - exists gi. split; [exact P|exact G].
Qed.

Print Assumptions C71_moving_chain.
Print Assumptions C71_nonvacuous.
