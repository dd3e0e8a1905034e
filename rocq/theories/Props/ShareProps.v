(** C89: the tool asks for more than the chain does. A step of the chain whose votes are enough for the
    chain but not for the tool's threshold blocks the tool, with an error that names the two balances,
    in every command and mode, whatever the chain does later. *)
From Coq Require Import List Arith NArith Bool Lia Sorted Permutation.
From Coq Require Import ZifyBool ZifyNat ZifyN.
From Coq.Init Require Import Byte.
From Verif.Model Require Import Base Types TreeHash Gindices Shuffle Committee ConsensusState Verify GuestReader Guest Cli CliRun HostChain HostStore HostInput StateFile InputCodec Networks Command.
From Verif.Spec Require FFG.
From Verif.Spec Require Import FFG Merkle Ssz Beacon Registry GuestSpec Committees VerifySpec HostSpec Pipeline HostInputSpec InputCodecSpec NetworkSpec ShuffleSpec Meaning Honest ReproSpec ShareSpec.
From Verif.Proof Require Import BaseLemmas VerifyP ShareP GuestP EndToEndP HostChainP HostInputP HostGuestP PreflightP ShuffleP PipelineP.
From Verif.Props Require Import CommitteeProps VerifyProps GuestToy HostToy HostInputProps CliProps ReplayProps PipelineProps InputCodecProps ClientProps NetworkProps ShuffleProps MeaningProps HonestProps ReproProps.
Import ListNotations.
Open Scope N_scope.

Lemma preflight_shares X trusted R l atts T V : epoch trusted <= epoch (target l) ->
  link_shares X R l atts T V -> link_shares X (preflight_reader trusted R) l atts T V.
Proof.
  intros Ht (f & gvr & avl & av & mix & sh & sets & P & E). exists f, gvr, avl, av, mix, sh, sets, P. cbv zeta in *.
  cbn [preflight_reader rd_chain_spec rd_fork rd_genesis_validators_root rd_active_validators rd_randao_mix].
  rewrite (proj2 (N.leb_le _ _) Ht). cbn [assert_ bind].
  destruct E as (E1 & E2 & E3 & E4 & E5 & E6 & E7 & E8 & E). rewrite E8. cbn [bind expect]. do 7 (split; [assumption|]). split; [reflexivity|]. exact E.
Qed.
Lemma guarded_split trusted s before weak after t : guarded_run trusted s (before ++ weak :: after) t ->
  exists stw, guarded_run trusted s before stw /\ finalized stw = trusted.
Proof.
  revert s. induction before as [|l before IH]; intros s H; cbn [app] in H; inversion H; subst.
  - exists s. split; [apply gr_nil|reflexivity || assumption].
  - edestruct IH as (stw & H1 & H2); [eassumption|]. exists stw. split; [econstructor; eauto|exact H2].
Qed.
Lemma honest_valid n X pkd states trusted st l g T V : valid_votes n X pkd states trusted st l g T V -> enough_for_tool n T V ->
  honest_votes n X pkd states trusted st l g.
Proof.
  intros [V1 V2 (st' & mix & H1 & H2 & H3 & H4 & H5 & H6 & H7 & H8 & H9 & -> & ->)] En. constructor; auto.
  exists st', mix. repeat (split; [assumption|]). split; [|assumption]. split; assumption.
Qed.

(** ** The step of the chain that is too weak *)
Section Host.
  Variables (n : Network) (X0 : Externals) (pk_deserialize : bytes -> option PublicKey)
    (states : Slot -> answer HState) (headers : Root -> outcome N (option Header)).
  Let X := with_swap_or_not X0 64.
  Let cs := network_spec n.
  Hypothesis U : usize_bits X0 = 64.
  Hypothesis Inj : signatures_by_bytes X0.
  Hypothesis Dec : decodes X pk_deserialize.
  Lemma valid_shares trusted s votes st sta l g T V :
    finalized s = trusted -> epoch trusted < 2 ^ 58 -> states (32 * epoch trusted) = Ok sta ->
    st_genesis_validators_root (hs_state sta) = st_genesis_validators_root (hs_state st) ->
    (forall st', states (32 * epoch (target l)) = Ok st' -> st_fork (hs_state st') = fork_at_epoch cs (epoch (target l))) ->
    (forall a, In a g -> link_of a = l) ->
    valid_votes n X pk_deserialize states trusted st l g T V ->
    link_shares X (host_reader cs pk_deserialize states headers s votes) l g T V.
  Proof.
    intros Tr Z2 Hsta G2 Hf Hl [V1 V2 (st' & mix & V3 & V4 & V5 & V6 & V7 & V8 & V9 & V10 & V11 & -> & ->)].
    assert (E32 : slots_per_epoch cs = 32) by (unfold cs; destruct n; reflexivity).
    change (2 ^ 58) with 288230376151711744 in Z2.
    assert (Es : forall x, x <= epoch trusted + 4 -> start_slot cs x = 32 * x).
    { intros x Hx'. unfold start_slot, sat_mul. rewrite E32. change u64_max with 18446744073709551615. lia. }
    assert (EX : on_platform X 64 = X) by (unfold on_platform, X, with_swap_or_not; cbn; now rewrite U).
    set (R := host_reader cs pk_deserialize states headers s votes).
    destruct (active_from_decodable pk_deserialize st' (epoch (target l)) V5) as [avl Hl'].
    assert (Rs : reader_state cs states (epoch (target l)) = Ok st') by (unfold reader_state; rewrite Es, V3 by lia; reflexivity).
    assert (G1 : reader_state cs states (epoch (finalized s)) = Ok sta) by (unfold reader_state; rewrite Tr, Es, Hsta by lia; reflexivity).
    rewrite <- EX. eapply (votes_shares n X0 64 R l g (hs_state st') mix avl); auto.
    + unfold R. cbn [host_reader rd_fork]. rewrite Rs. cbn [bind]. f_equal. auto.
    + unfold R. cbn [host_reader rd_genesis_validators_root]. rewrite G1. cbn [bind]. now rewrite G2, V4.
    + unfold R. cbn [host_reader rd_active_validators]. rewrite Rs. cbn [bind]. exact Hl'.
    + apply host_active with (pkd := pk_deserialize); [exact Dec|exact Hl'].
    + unfold R. cbn [host_reader rd_randao_mix]. rewrite Rs. cbn [bind]. now rewrite V6.
    + apply V2.
    + change (2 ^ 64) with 18446744073709551616. lia.
  Qed.
End Host.

Theorem C89_too_weak : forall n X0 pk_deserialize states headers blocks ch fuel trusted e s us t before l after bs T V st sta,
  let X := with_swap_or_not X0 64 in let cs := network_spec n in let ls := before ++ l :: after in let votes := chain_votes ls bs in
  (* a 64-bit host *)
  usize_bits X0 = 64 -> signatures_by_bytes X0 -> decodes X pk_deserialize ->
  (* the chain finalizes the trusted checkpoint, and then the next one *)
  next_finality cs ch trusted e s us t ls -> vote_window cs ch ls bs ->
  e <= epoch trusted + N.of_nat fuel -> (length us < fuel)%nat -> (e + 1 + N.of_nat fuel) * 32 < 2 ^ 64 ->
  (* the votes of its links are valid; [T] and [V] are the balances of all and of those who vote *)
  Forall (fun l => valid_votes n X pk_deserialize states trusted st l (votes_for l (included bs)) (T l) (V l)) ls ->
  (* [l] is the first of its links that is too weak for the tool *)
  Forall (fun l => enough_for_tool n (T l) (V l)) before -> ~ enough_for_tool n (T l) (V l) ->
  (* the trusted state and its block, the state at the start of the trusted epoch, and the later states *)
  checkpoint_state X cs states trusted = Ok st ->
  blocks (hd_slot (hs_header st)) = Ok (Some (boundary_block X st)) ->
  states (32 * epoch trusted) = Ok sta -> steady_chain cs states trusted st votes -> epoch trusted < 2 ^ 58 ->
  prepare_input X cs pk_deserialize states headers blocks (collect_from cs ch fuel) (config_for n) (epoch trusted)
  = Err (HI_Preflight (ThresholdNotMet (V l) (percent n * T l / 100))).
Proof.
  intros n X0 pkd states headers blocks ch fuel trusted e s us t before l after bs T V st sta X cs ls votes U Inj Dec Nf Vw F1 F2 F3 Hv Hb Hw Ec Hblk Hsta Sc Z2.
  pose proof (nf_trusted _ _ _ _ _ _ _ _ Nf) as Tr.
  assert (E32 : slots_per_epoch cs = 32) by (unfold cs; destruct n; reflexivity).
  assert (EX : on_platform X 64 = X) by (unfold on_platform, X, with_swap_or_not; cbn; now rewrite U).
  destruct (C65_parameters n X) as (_ & Sane & _). rewrite EX in Sane. fold cs in Sane.
  assert (Hsh : shuffle_permutes X) by apply C68_shuffle_permutes.
  assert (C : collect_from cs ch fuel trusted = Ok (s, votes)).
  { unfold collect_from. rewrite (host_new_ok cs ch trusted e s us t ls bs fuel); rewrite ?E32; auto; lia. }
  set (R := host_reader cs pkd states headers s votes).
  rewrite Forall_forall in Hv.
  assert (Es : forall x, x <= epoch trusted + 4 -> start_slot cs x = 32 * x).
  { intros x Hx'. unfold start_slot, sat_mul. rewrite E32. change u64_max with 18446744073709551615. change (2 ^ 58) with 288230376151711744 in Z2. lia. }
  assert (Vt : forall l, In l ls -> In (epoch (target l)) (target_epochs votes)).
  { intros k Hk. pose proof (vv_some _ _ _ _ _ _ _ _ _ _ (Hv k Hk)) as Q. destruct (votes_for k (included bs)) as [|a r] eqn:Ea; [easy|].
    assert (In a (votes_for k (included bs))) as Hin by (rewrite Ea; now left).
    unfold target_epochs. apply in_map_iff. exists a. split; [now apply votes_for_link in Hin as <-|]. apply in_flat_map. eauto. }
  assert (Sh : forall k, In k ls -> link_shares X R k (votes_for k (included bs)) (T k) (V k)).
  { intros k Hk. apply (valid_shares n X0 pkd states headers U Inj Dec trusted s votes st sta); auto.
    - exact (sc_genesis _ _ _ _ _ Sc _ _ Hsta).
    - intros st' H'. apply (sc_fork _ _ _ _ _ Sc _ st' (Vt k Hk)). rewrite Es; [exact H'|]. apply (vv_epoch _ _ _ _ _ _ _ _ _ _ (Hv k Hk)).
    - intros a Ha. now apply votes_for_link in Ha. }
  assert (Wb : forall k, In k ls -> within_bounds (config_for n) cs trusted k).
  { intros k Hk. pose proof (vv_epoch _ _ _ _ _ _ _ _ _ _ (Hv k Hk)) as V2.
    split; [replace (epoch_lookahead_limit (config_for n)) with 4 by (destruct n; reflexivity); lia|apply C65_supported; lia]. }
  assert (Late : forall k, In k ls -> epoch trusted <= epoch (target k)).
  { intros k Hk. apply N.lt_le_incl. rewrite <- Tr. eapply accepted_targets; [eapply nf_accepted; eauto|exact Hk]. }
  assert (L : links_with_votes ls (included bs) = map (fun l => (l, votes_for l (included bs))) ls).
  { apply all_have_votes. apply Forall_forall. intros k Hk. apply (vv_some _ _ _ _ _ _ _ _ _ _ (Hv k Hk)). }
  pose proof (grouping ls (included bs) (nf_nodup _ _ _ _ _ _ _ _ Nf)) as G. rewrite L in G. unfold ls in G. rewrite map_app in G. cbn [map] in G.
  assert (Run : guarded_run (finalized s) s (before ++ l :: after) t).
  { eapply history_guarded; [apply Nf|]. rewrite Tr. apply Nf. }
  apply guarded_split in Run as (stw & R1 & R2).
  assert (Ve : verify X (config_for n) (preflight_reader trusted R) = Err (ThresholdNotMet (V l) (percent n * T l / 100))).
  { assert (Hin : In l ls) by (unfold ls; apply in_or_app; right; now left).
    assert (Small : percent n * T l / 100 < 2 ^ 64).
    { destruct (vv_state _ _ _ _ _ _ _ _ _ _ (Hv l Hin)) as (st' & mix & _ & _ & _ & _ & _ & _ & _ & _ & _ & _).
      destruct (Sh l Hin) as (f & gvr & avl & av & mx & sh & sets & P & E). cbv zeta in E.
      destruct E as (_ & _ & _ & _ & _ & _ & _ & _ & _ & _ & _ & _ & (-> & _) & B & _). cbn [R host_reader rd_chain_spec] in B |- *.
      assert (percent n <= 100) by (destruct n; vm_compute; discriminate).
      eapply N.le_lt_trans; [|exact B]. apply N.div_le_upper_bound; [discriminate|]. nia. }
    rewrite (verify_weak X (config_for n) (preflight_reader trusted R) s votes
      (map (fun l => (l, votes_for l (included bs))) before) (l, votes_for l (included bs))
      (map (fun l => (l, votes_for l (included bs))) after) stw (T l) (V l)).
    - f_equal. f_equal. transitivity (wrap64 (percent n * T l / 100)); [|unfold wrap64; now apply N.mod_small].
      f_equal. destruct n; cbn [config_for DEFAULT_CONFIG SEPOLIA_CONFIG justification_threshold_factor justification_threshold_quotient percent];
        rewrite ?(N.mul_comm (T l)); reflexivity.
    - exact Sane.
    - exact Hsh.
    - reflexivity.
    - reflexivity.
    - exact G.
    - rewrite map_map. cbn [fst]. rewrite map_id. exact R1.
    - exact R2.
    - apply Forall_map. rewrite Forall_forall in Hb |- *. intros k Hk. cbn [fst snd].
      assert (Hk' : In k ls) by (unfold ls; apply in_or_app; now left).
      split; [|split; [cbn [preflight_reader rd_chain_spec R host_reader]; rewrite Tr; now apply Wb|]].
      + pose proof (vv_epoch _ _ _ _ _ _ _ _ _ _ (Hv k Hk')) as V2. unfold FFG.u64. change (2 ^ 58) with 288230376151711744 in Z2. change (2 ^ 64) with 18446744073709551616. lia.
      + specialize (Hb k Hk). unfold enough_for_tool in Hb.
        eapply shares_evidence; [apply preflight_shares; [now apply Late|now apply Sh]|..]; clear -Hb;
          destruct n; cbn [config_for DEFAULT_CONFIG SEPOLIA_CONFIG justification_threshold_factor justification_threshold_quotient percent] in *; lia.
    - cbn [preflight_reader rd_chain_spec R host_reader fst]. rewrite Tr. now apply Wb.
    - cbn [fst snd]. apply preflight_shares; [now apply Late|now apply Sh].
    - unfold enough_for_tool in Hw. clear -Hw.
      destruct n; cbn [config_for DEFAULT_CONFIG SEPOLIA_CONFIG justification_threshold_factor justification_threshold_quotient percent] in *; lia.
    - destruct n; vm_compute; discriminate. }
  unfold prepare_input. pose proof Ec as Ec'. unfold checkpoint_state, state_at_checkpoint in Ec'.
  apply bind_ok in Ec' as (st1 & E1 & E2). apply bind_ok in E2 as (u & E2 & E3). injection E3 as ->.
  rewrite E1. cbn [map_err bind]. rewrite Hblk. cbn [map_err bind ok_or].
  assert (A : bytes_eqb (hd_state_root (boundary_block X st)) (tree_root X (state_tree (sha256 X) (hs_state st))) = true)
    by (apply bytes_eqb_eq; reflexivity).
  rewrite A. cbn [assert_ bind].
  assert (Rt : mkCheckpoint (epoch trusted) (tree_root X (header_tree (sha256 X) (boundary_block X st))) = trusted).
  { unfold ensure in E2. destruct (bytes_eqb (root trusted) (boundary_root X st)) eqn:Eb; [|discriminate]. apply bytes_eqb_eq in Eb.
    change (tree_root X (header_tree (sha256 X) (boundary_block X st))) with (boundary_root X st). rewrite <- Eb. now destruct trusted. }
  rewrite Rt, C. cbn [map_err bind]. fold R. rewrite Ve. reflexivity.
Qed.

(** ** Exactly when the tool makes the chain's step *)
Lemma first_weak {A} (P : A -> Prop) (D : forall a, {P a} + {~ P a}) l : ~ Forall P l ->
  exists before x after, l = before ++ x :: after /\ Forall P before /\ ~ P x.
Proof.
  induction l as [|a l IH]; intros H; [now destruct H; constructor|]. destruct (D a) as [Pa|Na].
  - destruct IH as (b & x & r & -> & B & Nx); [intros Q; apply H; now constructor|]. exists (a :: b), x, r. split; [reflexivity|]. split; [now constructor|exact Nx].
  - exists [], a, l. split; [reflexivity|]. split; [constructor|exact Na].
Qed.
(** On an honest chain (as C70 has it), whose every step has two thirds or more behind it: the host
    builds an input for the step from the trusted checkpoint if and only if each of its links has the
    tool's share of the balance behind it. *)
Theorem C89_exactly : forall n X0 C pk_deserialize states headers blocks ch fuel trusted e s us t ls bs T V st sta h,
  let X := with_swap_or_not X0 64 in let cs := network_spec n in let votes := chain_votes ls bs in
  usize_bits X0 = 64 -> sane_codec C -> mainnet_limits C -> signatures_by_bytes X0 ->
  next_finality cs ch trusted e s us t ls -> vote_window cs ch ls bs ->
  e <= epoch trusted + N.of_nat fuel -> (length us < fuel)%nat -> (e + 1 + N.of_nat fuel) * 32 < 2 ^ 64 ->
  Forall (fun l => valid_votes n X pk_deserialize states trusted st l (votes_for l (included bs)) (T l) (V l) /\ enough_for_chain (T l) (V l)) ls ->
  headers (root (finalized t)) = Ok (Some h) -> mroot (sha256 X) (header_tree (sha256 X) h) = root (finalized t) ->
  checkpoint_state X cs states trusted = Ok st -> hs_supported st = true ->
  blocks (hd_slot (hs_header st)) = Ok (Some (boundary_block X st)) ->
  sound_data X cs pk_deserialize headers trusted st [root (finalized t)] ->
  states (32 * epoch trusted) = Ok sta -> keys_decode pk_deserialize (st_validators (hs_state sta)) (epoch trusted) ->
  steady_chain cs states trusted st votes ->
  (forall e st', In e (target_epochs votes) -> states (32 * e) = Ok st' ->
     exit_changes (st_validators (hs_state st')) (st_validators (hs_state st)) []) ->
  typed_answers C cs pk_deserialize states votes -> wf_checkpoint (current_justified s) -> wf_checkpoint trusted ->
  epoch (current_justified s) < 2 ^ 63 -> 1 <= epoch trusted < 2 ^ 58 ->
  N.of_nat (length (st_validators (hs_state st))) < 2 ^ 22 -> all_balances (st_validators (hs_state st)) < 2 ^ 62 ->
  N.of_nat (length votes) < 2 ^ 17 ->
  (exists r, prepare_input X cs pk_deserialize states headers blocks (collect_from cs ch fuel) (config_for n) (epoch trusted) = Ok r)
  <-> Forall (fun l => enough_for_tool n (T l) (V l)) ls.
Proof.
  intros n X0 C pkd states headers blocks ch fuel trusted e s us t ls bs T V st sta h X cs votes U S Ml Inj Nf Vw F1 F2 F3 Hv Hh Hr Ec Hsup Hblk D
    Hsta Ksta Sc Hx Ty W1 W2 Z1 Z2 Z3 Z4 Z5.
  assert (Hv1 : Forall (fun l => valid_votes n X pkd states trusted st l (votes_for l (included bs)) (T l) (V l)) ls) by (eapply Forall_impl; [|exact Hv]; cbn; tauto).
  split.
  - intros [r Hok]. assert (Dc : forall l, {enough_for_tool n (T l) (V l)} + {~ enough_for_tool n (T l) (V l)}).
    { intros l. unfold enough_for_tool. destruct (N.leb (percent n * T l) (100 * V l)) eqn:Q; [left|right]; lia. }
    destruct (Forall_dec _ Dc ls) as [A|A]; [exact A|exfalso].
    destruct (first_weak _ Dc ls A) as (before & l & after & -> & B & Nl).
    pose proof (C89_too_weak n X0 pkd states headers blocks ch fuel trusted e s us t before l after bs T V st sta U Inj (sd_decodes _ _ _ _ _ _ _ D) Nf Vw F1 F2 F3 Hv1 B Nl Ec Hblk Hsta Sc (proj2 Z2)) as Q.
    fold X cs in Q. congruence.
  - intros A. destruct (C70_honest_chain n X0 C pkd states headers blocks ch fuel trusted e s us t ls bs st sta h) as (gi & P & _); auto.
    + rewrite Forall_forall in A, Hv1 |- *. intros l Hl. eapply honest_valid; eauto.
    + eauto.
Qed.

(** ** The tool stays where it is *)
(** [nd] shows the chain from the trusted epoch [e] on to its next finality. If no input can be built
    for [e], then none can be at any other time: all nodes that show the same chain in this window give
    the same error, and every command that is to go on from [e] fails without a result. *)
Theorem C89_for_good : forall n X C w pk_deserialize zk nd e lo last err,
  let cs := network_spec n in
  sane_spec X cs -> window cs nd e lo last ->
  vw_prepare (view X cs pk_deserialize (config_for n) nd) e = Err err ->
  let shows := shows_window cs nd e lo last in
  (forall nd', shows nd' -> vw_prepare (view X cs pk_deserialize (config_for n) nd') e = Err err) /\
  (forall mode nd' later, shows nd' -> zkasper X C w pk_deserialize zk n (Verify mode e) (nd' :: later) = mkRun [] None None Failure) /\
  (forall mode slot log nd0 st nd' later, ch_state (nd_chain nd0) slot = Ok st -> epoch (finalized st) = e -> shows nd' ->
     zkasper X C w pk_deserialize zk n (Sync mode slot log) (nd0 :: nd' :: later) = mkRun [] (if log then Some [] else None) None Failure) /\
  (forall continuous nodes, Forall shows nodes ->
     let r := zkasper X C w pk_deserialize zk n (BuildInput e continuous) nodes in
     ran_built r = [] /\ (ran_end r = Failure \/ ran_end r = Ongoing)).
Proof.
  intros n X C w pkd zk nd e lo last err cs Sane W P shows.
  assert (Hspe : 0 < slots_per_epoch cs) by (destruct Sane as [S1 _]; lia).
  assert (A : forall nd', shows nd' -> vw_prepare (view X cs pkd (config_for n) nd') e = Err err).
  { intros nd' H'. destruct H' as [H1 H2]. destruct (prepare_same X cs pkd (config_for n) nd nd' e lo last Sane Hspe W H1 H2) as [<- _]. exact P. }
  split; [exact A|]. split; [|split].
  - intros mode nd' later H'. cbn [zkasper]. fold cs. rewrite (A nd' H'). reflexivity.
  - intros mode slot log nd0 st nd' later Hst He H'. cbn [zkasper]. rewrite Hst. fold cs. cbn [map sync_loop]. rewrite He, (A nd' H'). reflexivity.
  - intros continuous nodes Hn. cbn [zkasper]. fold cs.
    assert (B : exists st, build_loop continuous (map (view X cs pkd (config_for n)) nodes) e = ([], st) /\ (st = Failed \/ exists x, st = Running x)).
    { induction Hn as [|nd' nodes H' _ IH]; cbn [map build_loop]; [eauto|].
      destruct (vw_finalized _) as [fin|x|]; [|eauto|eauto].
      destruct (fin <? wrap64 (e + 1)); [exact IH|]. rewrite (A nd' H'). eauto. }
    destruct B as (st & -> & B). cbn [ran_built ran_end]. split; [reflexivity|]. destruct B as [->|(x & ->)]; [now left|now right].
Qed.

(** ** Non-vacuity: on mainnet six of eight validators vote, 75 percent of the balance *)
Definition v_atts : list Attestation := firstn 6 (z_atts Mainnet).
Definition v_bs : list Block := [mkBlock true (firstn 3 v_atts); mkBlock true (skipn 3 v_atts)].
Definition v_trust : N := w_trust Mainnet.
Definition v_chain : Chain :=
  mkChain (ch_state (z_chain Mainnet))
    (fun slot => Ok (if slot =? 32 * (v_trust + 2) + 20 then Some (mkBlock true (firstn 3 v_atts))
                     else if slot =? 32 * (v_trust + 2) + 32 then Some (mkBlock true (skipn 3 v_atts)) else None))
    (fun _ => Err 9).
Lemma v_next : next_finality (network_spec Mainnet) v_chain (finalized (w_pre Mainnet)) (v_trust + 2) (w_pre Mainnet) [] (w_post Mainnet) [w_link Mainnet].
Proof. destruct (z_next Mainnet) as [H1 H2 H3 H4 H5 H6]. constructor; assumption. Qed.
Lemma v_window : vote_window (network_spec Mainnet) v_chain [w_link Mainnet] v_bs.
Proof.
  constructor; [|repeat constructor].
  destruct (z_window Mainnet) as [(lo & hi & slots & H1 & H2 & H3 & _) _].
  exists (v_trust + 2), (v_trust + 2), (map (fun k => 32 * (v_trust + 2) + N.of_nat k) (seq 0 33)). split; [|split; [vm_compute; reflexivity|split]].
  - split; [|split].
    + intros l [<-|[]]. cbn. unfold v_trust. lia.
    + exists (w_link Mainnet). split; [now left|reflexivity].
    + exists (w_link Mainnet). split; [now left|reflexivity].
  - change (slots_per_epoch (network_spec Mainnet)) with 32. split.
    + generalize 0%nat, 33%nat. intros a k. revert a. induction k as [|k IH]; intros a; cbn [seq map]; constructor; [apply IH|].
      apply Forall_forall. intros x Hx. apply in_map_iff in Hx as (j & <- & Hj). apply in_seq in Hj. lia.
    + intros x. rewrite in_map_iff. split.
      * intros (j & <- & Hj). apply in_seq in Hj. lia.
      * intros Hx. exists (N.to_nat (x - 32 * (v_trust + 2))). split; [lia|]. apply in_seq. lia.
  - exists (repeat None 20 ++ [nth_error v_bs 0] ++ repeat None 11 ++ [nth_error v_bs 1]). split; [|reflexivity].
    repeat constructor.
Qed.
Lemma v_incl a : In a v_atts -> exists k, In k [0; 1; 2; 3; 4; 5] /\ a = y_att Mainnet (y_order Mainnet) k.
Proof. intros H. unfold v_atts, z_atts in H. cbn [map firstn] in H. repeat destruct H as [<-|H]; try contradiction; eexists; (split; [|reflexivity]); cbn [In]; tauto. Qed.
Lemma v_votes : votes_for (w_link Mainnet) (included v_bs) = v_atts.
Proof.
  rewrite votes_for_eqb. assert (I : included v_bs = v_atts) by (cbn [v_bs included flat_map bl_attestations]; now rewrite app_nil_r, firstn_skipn).
  rewrite I. assert (F : forallb (fun a => link_eqb (link_of a) (w_link Mainnet)) v_atts = true) by (vm_compute; reflexivity).
  clear I. induction v_atts as [|a r IH]; [reflexivity|]. cbn [forallb filter] in *. apply andb_prop in F as [-> F]. f_equal. auto.
Qed.
Lemma v_chain_votes : chain_votes [w_link Mainnet] v_bs = v_atts.
Proof. unfold chain_votes. cbn [flat_map]. now rewrite v_votes, app_nil_r. Qed.
Lemma v_valid : Forall (fun l => valid_votes Mainnet z_X h_deserialize (z_states Mainnet) (finalized (w_pre Mainnet)) (z_hstate Mainnet v_trust) l
  (votes_for l (included v_bs)) 256000000000 192000000000) [w_link Mainnet].
Proof.
  constructor; [|constructor]. rewrite v_votes. constructor.
  - discriminate.
  - split; vm_compute; discriminate.
  - exists (z_hstate Mainnet (v_trust + 2)), (toy_root 10).
    change (epoch (target (w_link Mainnet))) with (v_trust + 2). split; [apply (z_later Mainnet)|]. split; [reflexivity|]. split; [apply z_keys|].
    split. { cbn [z_hstate hs_randao_mixes]. apply z_mix. apply N.mod_lt. discriminate. }
    split; [vm_compute; reflexivity|]. split; [vm_compute; reflexivity|]. split; [vm_compute; reflexivity|].
    destruct (z_justified Mainnet) as [J _]. pose proof (z_includable Mainnet) as I.
    split. { rewrite <- (firstn_skipn 6 (z_atts Mainnet)) in J. apply Forall_app in J as [J _]. exact J. }
    split. { rewrite <- (firstn_skipn 6 (z_atts Mainnet)) in I. apply Forall_app in I as [I _]. exact I. }
    split; [vm_compute; reflexivity|].
    cbn [z_hstate hs_state z_state st_validators].
    assert (W : voters z_X w_vs (toy_root 10) (v_trust + 2) v_atts =
      filter (fun i => existsb (fun k => i =? nth (N.to_nat k) (y_order Mainnet) 0) [0; 1; 2; 3; 4; 5] && negb (is_slashed w_vs i)) (active_indices w_vs (v_trust + 2))).
    { unfold voters. apply filter_ext. intros i. f_equal. unfold v_atts, z_atts. cbn [map firstn existsb]. rewrite !z_attesters by (cbn [In]; tauto).
      cbn [mem existsb]. now rewrite !orb_false_r. }
    rewrite W. vm_compute. reflexivity.
Qed.
Lemma v_steady : steady_chain (network_spec Mainnet) (z_states Mainnet) (finalized (w_pre Mainnet)) (z_hstate Mainnet v_trust) v_atts.
Proof.
  assert (I : forall e, In e (target_epochs v_atts) -> In e (target_epochs (z_atts Mainnet))).
  { intros e He. unfold target_epochs in *. rewrite <- (firstn_skipn 6 (z_atts Mainnet)), map_app. apply in_or_app. now left. }
  destruct (z_steady Mainnet) as [S1 S2 S3 S4 S5]. constructor; eauto.
Qed.
(** Two thirds are reached, 85 percent are not: the error has the balance of the voters, and 85 percent
    of the active balance. *)
Example C89_nonvacuous : enough_for_chain 256000000000 192000000000 /\ ~ enough_for_tool Mainnet 256000000000 192000000000 /\
  prepare_input z_X (network_spec Mainnet) h_deserialize (z_states Mainnet) (z_headers Mainnet) (z_blocks Mainnet)
    (collect_from (network_spec Mainnet) v_chain 5) (config_for Mainnet) v_trust
  = Err (HI_Preflight (ThresholdNotMet 192000000000 217600000000)).
Proof.
  split; [vm_compute; discriminate|]. assert (Nt : ~ enough_for_tool Mainnet 256000000000 192000000000) by (vm_compute; intros H; now apply H). split; [exact Nt|].
  refine (C89_too_weak Mainnet z_X0 h_deserialize (z_states Mainnet) (z_headers Mainnet) (z_blocks Mainnet) v_chain 5 (finalized (w_pre Mainnet)) (v_trust + 2)
    (w_pre Mainnet) [] (w_post Mainnet) [] (w_link Mainnet) [] v_bs (fun _ => 256000000000) (fun _ => 192000000000) (z_hstate Mainnet v_trust) (z_hstate Mainnet v_trust)
    _ _ _ _ _ _ _ _ _ _ _ _ _ _ _ _).
  - reflexivity.
  - exact z_bytes.
  - exact z_decodes.
  - exact v_next.
  - exact v_window.
  - vm_compute. discriminate.
  - cbn [length]. lia.
  - vm_compute. reflexivity.
  - exact v_valid.
  - constructor.
  - exact Nt.
  - apply (z_checkpoint Mainnet).
  - fold z_X. unfold v_trust. rewrite (z_block Mainnet). unfold z_blocks. cbn [z_hstate hs_header hd_slot]. now rewrite N.eqb_refl.
  - apply (z_here Mainnet).
  - cbn [app]. rewrite v_chain_votes. exact v_steady.
  - vm_compute. reflexivity.
Qed.
(** The node that shows this chain, and the same chain much later. *)
Definition v_node : Node := mkNode (Ok (v_trust + 1)) (z_states Mainnet) (z_headers Mainnet) (z_blocks Mainnet) v_chain 5.
Definition v_node_later : Node :=
  mkNode (Ok (v_trust + 500)) (z_states Mainnet) (z_headers Mainnet) (z_blocks Mainnet)
    (mkChain (fun slot => if slot <=? 32 * (v_trust + 3) then ch_state v_chain slot else Ok (mkCS (mkCheckpoint (slot / 32 - 1) (toy_root 3)) (mkCheckpoint (slot / 32 - 2) (toy_root 4))))
       (ch_block v_chain) (fun _ => Err 9)) 900.
Example C89_for_good_nonvacuous :
  window (network_spec Mainnet) v_node v_trust (32 * v_trust) (v_trust + 3) /\
  Forall (shows_window (network_spec Mainnet) v_node v_trust (32 * v_trust) (v_trust + 3)) [v_node; v_node_later] /\
  forall C w zk mode later, zkasper z_X C w h_deserialize zk Mainnet (Verify mode v_trust) (v_node_later :: later) = mkRun [] None None Failure.
Proof.
  assert (W : window (network_spec Mainnet) v_node v_trust (32 * v_trust) (v_trust + 3)).
  { constructor.
    - vm_compute. reflexivity.
    - vm_compute. discriminate.
    - intros s st Hs E. change (v_trust * slots_per_epoch (network_spec Mainnet)) with (32 * v_trust) in Hs. assert (s = 32 * v_trust) as -> by lia.
      cbn [v_node nd_states] in E. rewrite (z_here Mainnet : z_states Mainnet (32 * v_trust) = _) in E. injection E as <-. cbn [z_hstate hs_header hd_slot]. unfold v_trust. lia.
    - vm_compute. reflexivity.
    - exists (w_post Mainnet). split; [reflexivity|vm_compute; reflexivity].
    - intros x st Hx E. assert (x = v_trust + 1 \/ x = v_trust + 2 \/ x = v_trust + 3) as [-> | [-> | ->]] by lia;
        vm_compute in E; injection E as <-; vm_compute; reflexivity.
    - vm_compute. discriminate. }
  assert (S : Forall (shows_window (network_spec Mainnet) v_node v_trust (32 * v_trust) (v_trust + 3)) [v_node; v_node_later]).
  { assert (R : agree_between v_node v_node (32 * v_trust) ((v_trust + 3) * slots_per_epoch (network_spec Mainnet))) by (constructor; auto).
    apply Forall_cons; [split; [exact R|vm_compute; discriminate]|]. apply Forall_cons; [|apply Forall_nil]. split; [|vm_compute; discriminate].
    destruct R as [A1 A2 _ A4 A5]. constructor; [exact A1|exact A2| |exact A4|exact A5].
    intros s Hs. cbn [v_node_later nd_chain ch_state]. change ((v_trust + 3) * slots_per_epoch (network_spec Mainnet)) with (32 * (v_trust + 3)) in Hs.
    now replace (s <=? 32 * (v_trust + 3)) with true by lia. }
  split; [exact W|]. split; [exact S|]. intros C w zk mode later.
  destruct C89_nonvacuous as (_ & _ & P).
  inversion S as [|? ? _ S2]; inversion S2; subst.
  destruct (C89_for_good Mainnet z_X C w h_deserialize zk v_node v_trust (32 * v_trust) (v_trust + 3) _
    ltac:(destruct (C65_parameters Mainnet z_X) as (_ & Q & _); exact Q) W P) as (_ & V & _). apply V. assumption.
Qed.

Print Assumptions C89_too_weak.
Print Assumptions C89_exactly.
Print Assumptions C89_for_good.
Print Assumptions C89_nonvacuous.
Print Assumptions C89_for_good_nonvacuous.
