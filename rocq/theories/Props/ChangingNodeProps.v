(** C79: a beacon node that changes its answers during a run. *)
From Coq Require Import String List Arith ZArith NArith Bool Lia.
From Coq Require Import ZifyBool ZifyNat ZifyN.
From Verif.Model Require Import Base Types ConsensusState Multiproof Gindices Verify GuestReader Guest HostChain HostStore HostInput Cli CliRun ChangingNode.
From Verif.Spec Require FFG.
From Verif.Spec Require Import Merkle MultiproofSpec Ssz Beacon GuestSpec Committees VerifySpec HostSpec HostInputSpec ChangingSpec.
From Verif.Proof Require Import BaseLemmas MerkleP MultiproofP BeaconP VerifyP VerifyMoreP GuestP HostChainP HostStoreP HostInputP HostGuestP ReplayP PreflightP ChangingNodeP.
From Verif.Props Require Import VerifyProps GuestToy HostToy HostChainProps HostInputProps ReplayProps PipelineProps.
Import ListNotations.
Open Scope N_scope.
Notation length := List.length.

(** When nothing changes, the numbered requests do what the plain ones do. *)
Theorem C79_constant_node : forall cs c trusted fuel k,
  option_map (fun r => '(s, atts, _) <- r ;; Ok (s, atts)) (host_new_over cs (fun _ => c) trusted fuel k) = host_new cs c trusted fuel.
Proof. exact host_new_over_same. Qed.

(** Whatever the node answers, and however often it changes its mind, links and attestations that have
    been collected from it are those that would have been collected from a chain that does not change,
    each of whose answers the node has given during the run. *)
Theorem C79_collected_as_from_one_chain : forall cs ch trusted fuel k s atts k',
  0 < slots_per_epoch cs -> (epoch trusted + 2 * N.of_nat fuel + 2) * slots_per_epoch cs < 2 ^ 64 ->
  host_new_over cs ch trusted fuel k = Some (Ok (s, atts, k')) ->
  exists c, drawn_from ch k k' c /\ host_new cs c trusted fuel = Some (Ok (s, atts)).
Proof.
  intros cs ch trusted fuel k s atts k' Hs B H.
  destruct (host_new_over_fixed cs ch trusted fuel k s atts k' Hs B H) as (t & u & T & U & E).
  exists (mixed ch t u). split; [|exact E]. split; intros sl; [exists (t sl)|exists (u sl)]; cbn [mixed ch_state ch_block]; auto.
Qed.

(** Changes that come after the first state with new finality, and after the block window of the
    epochs justified there, have no effect: the run goes as on the chain [c]. *)
Theorem C79_later_changes_do_not_matter : forall cs c trusted fuel s atts,
  0 < slots_per_epoch cs -> (epoch trusted + 2 * N.of_nat fuel + 2) * slots_per_epoch cs < 2 ^ 64 ->
  host_new cs c trusted fuel = Some (Ok (s, atts)) ->
  exists e last t, first_confirming cs c trusted e /\ state_at cs c e s /\ e < last /\ state_at cs c last t /\
    finalized t <> trusted /\ (forall x, e <= x < last -> exists u, state_at cs c x u /\ finalized u = trusted) /\
    forall ch k,
      (forall i sl, sl <= last * slots_per_epoch cs -> ch_state (ch i) sl = ch_state c sl) ->
      (forall i sl, sl <= (epoch (current_justified t) + 1) * slots_per_epoch cs -> ch_block (ch i) sl = ch_block c sl) ->
      exists k', host_new_over cs ch trusted fuel k = Some (Ok (s, atts, k')).
Proof.
  intros cs c trusted fuel s atts Hs B H. unfold host_new in H.
  assert (Bs : epoch trusted + 2 * N.of_nat fuel + 2 < 2 ^ 64).
  { eapply N.le_lt_trans; [|exact B]. rewrite <- (N.mul_1_r (_ + 2)) at 1. apply N.mul_le_mono_l. lia. }
  assert (Ss : forall x, x <= epoch trusted + 2 * N.of_nat fuel + 2 -> start_slot cs x = x * slots_per_epoch cs).
  { intros x Hx. apply start_slot_exact. eapply N.le_lt_trans; [|exact B]. now apply N.mul_le_mono_r. }
  destruct (find_finalization_epoch cs c trusted fuel) as [[e|x|]|] eqn:Ef; try discriminate.
  assert (Fc : first_confirming cs c trusted e /\ e <= epoch trusted + N.of_nat fuel).
  { apply (C41_first_confirming_epoch cs c trusted fuel e Hs); [|exact Ef]. eapply N.le_lt_trans; [|exact B]. apply N.mul_le_mono_r. lia. }
  destruct Fc as [Fc He]. unfold find_finalization_epoch in Ef. rewrite wrap64_exact in Ef by lia.
  destruct (find_over_agree _ _ _ _ _ _ Ef ltac:(lia)) as [F1 F2].
  destruct (get_justifications_until_new_finality cs c e fuel) as [r|] eqn:Ej; [|discriminate]. injection H as H.
  apply bind_ok in H as ([[s' t] links] & -> & H). apply bind_ok in H as (v & H2 & H). apply bind_ok in H as (atts' & H3 & H).
  injection H as -> ->.
  assert (Ok1 : finalized s = trusted).
  { unfold assert_ in H2. destruct (checkpoint_eqb (finalized s) trusted) eqn:Q; [|discriminate]. now apply checkpoint_eqb_eq. }
  assert (Hl : forall l, In l links -> epoch (target l) <= epoch (current_justified t)).
  { apply C39_links_replay in Ej as (_ & _ & Hr & _); [|exact Hs|eapply N.le_lt_trans; [|exact B]; apply N.mul_le_mono_r; lia].
    clear - Hr.
    assert (M : forall a ls b, FFG.ffg_run a ls b -> epoch (current_justified a) <= epoch (current_justified b) /\
      forall l, In l ls -> epoch (target l) <= epoch (current_justified b)).
    { induction 1 as [a|a l a1 ls b Hst Hrun IH]; [split; [lia|easy]|]. destruct IH as [I1 I2].
      assert (epoch (target l) = epoch (current_justified a1) /\ epoch (current_justified a) <= epoch (current_justified a1)) as [E1 E2]
        by (inversion Hst; subst; cbn [target current_justified]; lia).
      split; [lia|]. intros x [<-|Hx]; [lia|auto]. }
    apply (M _ _ _ Hr). }
  unfold get_justifications_until_new_finality in Ej.
  destruct (ch_state c (start_slot cs e)) as [s0|x|] eqn:E0; cbn [map_err] in Ej; try discriminate.
  rewrite wrap64_exact in Ej by lia.
  destruct (justifications_over_agree _ _ _ _ _ _ _ _ _ _ Ej ltac:(lia)) as (-> & last & J1 & J2 & J3 & J4 & J5).
  rewrite Ss in E0 by lia. rewrite Ss in J2 by lia. exists e, last, t.
  split; [exact Fc|]. split; [exact E0|]. split; [lia|]. split; [exact J2|]. split; [congruence|]. split.
  { intros x Hx. destruct (N.eq_dec x e) as [->|Hn]; [exists s0; auto|]. destruct (J3 x ltac:(lia)) as (u & U1 & U2).
    rewrite Ss in U1 by lia. exists u. split; [exact U1|congruence]. }
  intros ch k Sa Ba. unfold host_new_over. rewrite wrap64_exact by lia.
  assert (Sa' : forall i x, x <= last -> ch_state (ch i) (start_slot cs x) = ch_state c (start_slot cs x)).
  { intros i x Hx. apply Sa. rewrite Ss by lia. now apply N.mul_le_mono_r. }
  destruct (F2 ch ltac:(intros; apply Sa'; lia) k) as (k1 & ->). unfold get_justifications_over. rewrite Sa' by lia. rewrite Ss by lia. rewrite E0.
  cbn [map_err]. rewrite wrap64_exact by lia. destruct (J5 ch ltac:(intros; apply Sa'; lia) (S k1)) as (k2 & ->). cbn [bind].
  rewrite H2. cbn [bind]. destruct (collect_over_agree cs c links _ atts H3 Hl ch Ba k2) as (k3 & ->). cbn [bind]. now exists k3.
Qed.

(** Beacon states come through the caching provider. Whatever the sources behind it do (a node that
    changes its mind, files that come and go), a state that has been given for a slot is given for
    that slot from then on. *)
Theorem C79_states_do_not_change : forall (St W : Type) (inner : provider St W) c w slots answers cw' i j s st,
  requests (cached_state_at_slot inner) (c, w) slots = (answers, cw') -> (i <= j)%nat ->
  nth_error slots i = Some s -> nth_error slots j = Some s ->
  nth_error answers i = Some (Ok st) -> nth_error answers j = Some (Ok st).
Proof. intros. eapply cached_requests_same; eauto. Qed.

Lemma slot_proof_header X headers r mp h : hash32 (sha256 X) -> block_slot_proof X headers r = Ok mp ->
  headers r = Ok (Some h) -> wf_header h -> tree_root X (header_tree (sha256 X) h) = r.
Proof.
  intros Hh E Hr Hw. unfold block_slot_proof in E. rewrite Hr in E. cbn [map_err bind ok_or] in E.
  destruct (header_field_multiproof X h (Field "slot"%string) block_slot_gindex (ssz_u64 (hd_slot h)) Hh Hw) as (mp' & E' & V & _).
  { reflexivity. } { split; reflexivity. } { apply node_at_header_slot. }
  apply bind_ok in E as (b & Eb & E). apply bind_ok in E as (mp2 & Em & E). apply bind_ok in E as (u & Ev & E). injection E as ->.
  rewrite Eb in E'. cbn [bind] in E'. rewrite Em in E'. injection E' as ->.
  apply (proj1 (map_err_ok _ _ _)) in Ev. destruct u. apply mp_verify_iff in Ev, V.
  apply calculate_root_iff in Ev, V. unfold tree_root. congruence.
Qed.
Lemma same_root_same_slot X h h' : hash32 (sha256 X) -> wf_header h -> wf_header h' ->
  tree_root X (header_tree (sha256 X) h) = tree_root X (header_tree (sha256 X) h') ->
  injective_on (sha256 X) (hash_inputs (sha256 X) (header_tree (sha256 X) h) ++ hash_inputs (sha256 X) (header_tree (sha256 X) h')) ->
  hd_slot h = hd_slot h'.
Proof.
  intros Hh W W' E I. apply ssz_u64_inj; [apply W|apply W'|].
  eapply (merkle_binding (sha256 X) (header_tree (sha256 X) h) (header_tree (sha256 X) h')); eauto using header_tree_wf;
    apply node_at_header_slot.
Qed.

(** An input that has been prepared while the node changed its answers is the one that would have been
    prepared from a node that does not change and whose answers are among those given; so is the
    predicted transition. The predicted slot is that of the header given during the preflight run, the
    proven one that of the header given when the input was put together. *)
Theorem C79_prepared_as_from_one_node : forall X cs pk_deserialize states m cfg fuel finalized_epoch gi pre post slot,
  0 < slots_per_epoch cs -> (finalized_epoch + 2 * N.of_nat fuel + 2) * slots_per_epoch cs < 2 ^ 64 ->
  prepare_over X cs pk_deserialize states m cfg fuel finalized_epoch = Ok (gi, pre, post, slot) ->
  exists n i h h', settled states m fuel n /\
    prepare_input X cs pk_deserialize (nd_states n) (nd_headers n) (nd_blocks n) (collect_from cs (nd_chain n) (nd_fuel n)) cfg finalized_epoch
      = Ok (gi, pre, post, hd_slot h') /\
    mo_headers (m i) (root (finalized post)) = Ok (Some h) /\ slot = hd_slot h /\
    nd_headers n (root (finalized post)) = Ok (Some h').
Proof.
  intros X cs pkd states m cfg fuel fe gi pre post slot Hs B H. unfold prepare_over in H.
  apply bind_ok in H as (st & H1 & H). apply bind_ok in H as (o & H2 & H). apply bind_ok in H as (blk & H3 & H). apply bind_ok in H as (u & H4 & H).
  cbv zeta in H. set (trusted := mkCheckpoint fe _) in *.
  apply bind_ok in H as ([[cst atts] k] & H5 & H). apply bind_ok in H as ([post' slot'] & H6 & H). apply bind_ok in H as (gi' & H7 & H).
  injection H as -> <- -> ->. apply (proj1 (map_err_ok _ _ _)) in H5.
  destruct (host_new_over cs (fun k => mo_chain (m k)) trusted fuel 1) as [r|] eqn:Eh; [|discriminate]. subst r.
  destruct (C79_collected_as_from_one_chain cs _ trusted _ _ _ _ _ Hs B Eh) as (c & Dr & Ec).
  apply (proj1 (map_err_ok _ _ _)) in H6.
  pose proof H7 as T. unfold to_input in T.
  apply bind_ok in T as (t1 & _ & T). apply bind_ok in T as (t2 & _ & T). apply bind_ok in T as (t3 & _ & T). apply bind_ok in T as (t4 & _ & T).
  apply bind_ok in T as (t5 & _ & T). apply bind_ok in T as (t6 & _ & T). apply bind_ok in T as (t7 & _ & T). apply bind_ok in T as ([t8 t9] & _ & T).
  apply bind_ok in T as (t10 & _ & T). apply bind_ok in T as (t11 & _ & T). apply bind_ok in T as (t12 & T & _).
  unfold recorded_reads in T. cbn [rs_blocks map_outcome] in T. apply bind_ok in T as (mp & T & _).
  unfold block_slot_proof in T. apply bind_ok in T as (oh & T1 & T). apply bind_ok in T as (h' & T2 & _). apply (proj1 (map_err_ok _ _ _)) in T1.
  destruct oh as [h2|]; [|discriminate]. injection T2 as ->.
  unfold verify in H6. apply bind_ok in H6 as (st0 & V1 & H6). apply bind_ok in H6 as (atts0 & V2 & H6). apply bind_ok in H6 as (st1 & V3 & H6).
  apply bind_ok in H6 as (v & V4 & H6). apply bind_ok in H6 as (sl & V5 & H6). injection H6 as -> ->.
  apply (proj1 (map_err_ok _ _ _)) in V5. cbn [preflight_reader rd_slot_for_block host_reader] in V5.
  apply bind_ok in V5 as (oh & W1 & V5). apply (proj1 (map_err_ok _ _ _)) in W1. apply bind_ok in V5 as (h & W2 & V5). injection V5 as <-.
  destruct oh as [h3|]; [|discriminate]. injection W2 as ->.
  exists (mkNode (Ok 0) states (mo_headers (m (S k))) (mo_blocks (m 0%nat)) c fuel), k, h, h'.
  cbn [nd_states nd_headers nd_blocks nd_chain nd_fuel].
  split; [exists k; auto|]. split; [|auto].
  unfold prepare_input. rewrite H1. cbn [bind]. rewrite H2. cbn [bind]. rewrite H3. cbn [bind]. rewrite H4. cbn [bind]. cbv zeta. fold trusted.
  unfold collect_from. rewrite Ec. cbn [map_err bind].
  assert (V : verify X cfg (preflight_reader trusted (host_reader cs pkd states (mo_headers (m (S k))) cst atts)) = Ok (post, hd_slot h')).
  { unfold verify. cbn [preflight_reader host_reader rd_consensus_state rd_attestations] in *. rewrite V1. cbn [bind]. rewrite V2. cbn [bind].
    match goal with |- context [fold_outcome ?f ?l ?a] => change (fold_outcome f l a) with (fold_outcome (process_link X cfg (preflight_reader trusted (host_reader cs pkd states (mo_headers (m k)) cst atts)) (finalized st0)) l a) end.
    rewrite V3. cbn [bind]. rewrite V4. cbn [bind]. cbn [preflight_reader host_reader rd_slot_for_block]. rewrite T1. reflexivity. }
  rewrite V. cbn [map_err bind]. rewrite H7. reflexivity.
Qed.
Lemma prepared_header X cs pkd states headers blocks collect cfg fe gi pre post slot h :
  prepare_input X cs pkd states headers blocks collect cfg fe = Ok (gi, pre, post, slot) -> hash32 (sha256 X) ->
  headers (root (finalized post)) = Ok (Some h) -> wf_header h -> tree_root X (header_tree (sha256 X) h) = root (finalized post).
Proof.
  intros H Hh Hr Hw. unfold prepare_input in H.
  apply bind_ok in H as (st & _ & H). apply bind_ok in H as (o & _ & H). apply bind_ok in H as (blk & _ & H). apply bind_ok in H as (u & _ & H).
  cbv zeta in H. apply bind_ok in H as ([cst atts] & _ & H). apply bind_ok in H as ([post' slot'] & _ & H). apply bind_ok in H as (gi' & T & H).
  injection H as -> _ -> ->. unfold to_input in T.
  apply bind_ok in T as (t1 & _ & T). apply bind_ok in T as (t2 & _ & T). apply bind_ok in T as (t3 & _ & T). apply bind_ok in T as (t4 & _ & T).
  apply bind_ok in T as (t5 & _ & T). apply bind_ok in T as (t6 & _ & T). apply bind_ok in T as (t7 & _ & T). apply bind_ok in T as ([t8 t9] & _ & T).
  apply bind_ok in T as (t10 & _ & T). apply bind_ok in T as (t11 & _ & T). apply bind_ok in T as (t12 & T & _).
  unfold recorded_reads in T. cbn [rs_blocks map_outcome] in T. apply bind_ok in T as (mp & T & _).
  eapply slot_proof_header; eauto.
Qed.

(** With genuine headers the prediction, slot included, is that of a node that does not change. *)
Theorem C79_predicted_as_from_one_node : forall X cs pk_deserialize states m cfg fuel finalized_epoch gi pre post slot,
  0 < slots_per_epoch cs -> (finalized_epoch + 2 * N.of_nat fuel + 2) * slots_per_epoch cs < 2 ^ 64 ->
  hash32 (sha256 X) -> genuine_headers X m (root (finalized post)) ->
  prepare_over X cs pk_deserialize states m cfg fuel finalized_epoch = Ok (gi, pre, post, slot) ->
  exists n, settled states m fuel n /\
    prepare_input X cs pk_deserialize (nd_states n) (nd_headers n) (nd_blocks n) (collect_from cs (nd_chain n) (nd_fuel n)) cfg finalized_epoch
      = Ok (gi, pre, post, slot).
Proof.
  intros X cs pkd states m cfg fuel fe gi pre post slot Hs B Hh [G1 G2] H.
  destruct (C79_prepared_as_from_one_node _ _ _ _ _ _ _ _ _ _ _ _ Hs B H) as (n & i & h & h' & S & P & E & -> & E').
  exists n. split; [exact S|]. destruct S as (k & _ & _ & Sh & _). rewrite Sh in E'.
  rewrite (same_root_same_slot X h h'); [exact P|exact Hh|apply (G1 _ _ E)|apply (G1 _ _ E')| |exact (G2 _ _ _ _ E E')].
  destruct (G1 _ _ E) as [_ ->]. now destruct (G1 _ _ E') as [_ ->].
Qed.

(** Whatever the node does during the run, the guest, given the input, commits the transition that was
    predicted, with the slot of a header that has the root of the finalized block. The conditions are
    those of C55. *)
Theorem C79_guest_commits_the_transition :
  forall X bits cs pk_deserialize states m cfg fuel finalized_epoch gi pre post slot decode frame st,
  0 < slots_per_epoch cs -> (finalized_epoch + 2 * N.of_nat fuel + 2) * slots_per_epoch cs < 2 ^ 64 ->
  prepare_over X cs pk_deserialize states m cfg fuel finalized_epoch = Ok (gi, pre, post, slot) ->
  checkpoint_state X cs states (finalized pre) = Ok st ->
  (forall i, sound_data X cs pk_deserialize (mo_headers (m i)) (finalized pre) st [root (finalized post)]) ->
  steady_chain cs states (finalized pre) st (gi_attestations gi) ->
  (forall e, In e (target_epochs (gi_attestations gi)) -> FFG.u64 e) ->
  epoch (current_justified pre) + 1 + max_seed_lookahead cs < 2 ^ 64 -> 1 <= epoch (finalized pre) ->
  far_future_epoch cs = 2 ^ 64 - 1 -> sane_spec X cs -> sane_spec (on_platform X bits) cs -> shuffle_permutes X ->
  registry_fits X cs (st_validators (hs_state st)) (target_epochs (gi_attestations gi)) ->
  registry_fits (on_platform X bits) cs (st_validators (hs_state st)) (target_epochs (gi_attestations gi)) ->
  decode frame = Some gi ->
  (exists r, into_reader (on_platform X bits) cs gi = Ok r) ->
  exists h, tree_root X (header_tree (sha256 X) h) = root (finalized post) /\
    entry (on_platform X bits) decode cs cfg frame = Ok (journal_encode pre post (hd_slot h)).
Proof.
  intros X bits cs pkd states m cfg fuel fe gi pre post slot decode frame st Hs B H Ec D Sc Hu Hj Ht Hff S1 S2 Hsh F1 F2 Hd Hr.
  destruct (C79_prepared_as_from_one_node _ _ _ _ _ _ _ _ _ _ _ _ Hs B H) as (n & i & h & h' & S & P & E & -> & E').
  destruct S as (k & _ & Sb & Sh & Ss & _). rewrite Ss, Sh in P. rewrite Sh in E'. exists h'. split.
  - eapply prepared_header; eauto; [apply (sd_hash _ _ _ _ _ _ _ (D (S k)))|].
    apply (sd_blocks _ _ _ _ _ _ _ (D (S k)) (root (finalized post))); [now left|exact E'].
  - eapply (C55_guest_repeats_preflight X bits cs pkd states (mo_headers (m (S k)))); eauto using collect_from_ok.
Qed.
(** If the headers are genuine, the guest commits exactly what was predicted. *)
Theorem C79_guest_commits_the_prediction :
  forall X bits cs pk_deserialize states m cfg fuel finalized_epoch gi pre post slot decode frame st,
  0 < slots_per_epoch cs -> (finalized_epoch + 2 * N.of_nat fuel + 2) * slots_per_epoch cs < 2 ^ 64 ->
  prepare_over X cs pk_deserialize states m cfg fuel finalized_epoch = Ok (gi, pre, post, slot) ->
  genuine_headers X m (root (finalized post)) ->
  checkpoint_state X cs states (finalized pre) = Ok st ->
  (forall i, sound_data X cs pk_deserialize (mo_headers (m i)) (finalized pre) st [root (finalized post)]) ->
  steady_chain cs states (finalized pre) st (gi_attestations gi) ->
  (forall e, In e (target_epochs (gi_attestations gi)) -> FFG.u64 e) ->
  epoch (current_justified pre) + 1 + max_seed_lookahead cs < 2 ^ 64 -> 1 <= epoch (finalized pre) ->
  far_future_epoch cs = 2 ^ 64 - 1 -> sane_spec X cs -> sane_spec (on_platform X bits) cs -> shuffle_permutes X ->
  registry_fits X cs (st_validators (hs_state st)) (target_epochs (gi_attestations gi)) ->
  registry_fits (on_platform X bits) cs (st_validators (hs_state st)) (target_epochs (gi_attestations gi)) ->
  decode frame = Some gi ->
  (exists r, into_reader (on_platform X bits) cs gi = Ok r) ->
  entry (on_platform X bits) decode cs cfg frame = Ok (journal_encode pre post slot).
Proof.
  intros X bits cs pkd states m cfg fuel fe gi pre post slot decode frame st Hs B H G Ec D Sc Hu Hj Ht Hff S1 S2 Hsh F1 F2 Hd Hr.
  destruct (C79_predicted_as_from_one_node _ _ _ _ _ _ _ _ _ _ _ _ Hs B (sd_hash _ _ _ _ _ _ _ (D 0%nat)) G H) as (n & (k & _ & Sb & Sh & Ss & _) & P).
  rewrite Ss, Sh in P. eapply (C55_guest_repeats_preflight X bits cs pkd states (mo_headers (m (S k)))); eauto using collect_from_ok.
Qed.

(** *** The build-input loop *)
(** One iteration of the loop against a node that changes: the finalized epoch, and the moments. *)
Definition changing_view (X : Externals) (cs : ChainSpec) (pk_deserialize : bytes -> option bytes) (states : Slot -> answer HState)
           (cfg : Config) (fuel : nat) (v : outcome N Epoch * (nat -> Moment)) : View :=
  mkView (fst v) (prepare_over X cs pk_deserialize states (snd v) cfg fuel).
(** The inputs and journals that the loop writes are those it would have written against nodes that do
    not change during an iteration. *)
Theorem C79_build_as_from_one_node_each : forall X cs pk_deserialize states cfg fuel continuous vs e,
  0 < slots_per_epoch cs -> hash32 (sha256 X) ->
  (forall v r, In v vs -> genuine_headers X (snd v) r) ->
  (forall b, In b (fst (build_loop continuous (map (changing_view X cs pk_deserialize states cfg fuel) vs) e)) ->
     (b_epoch b + 2 * N.of_nat fuel + 2) * slots_per_epoch cs < 2 ^ 64) ->
  exists ns, (forall n, In n ns -> exists v, In v vs /\ nd_finalized n = fst v /\ (settled states (snd v) fuel n \/ nd_chain n = mo_chain (snd v 0%nat))) /\
    fst (build_loop continuous (map (view X cs pk_deserialize cfg) ns) e) =
    fst (build_loop continuous (map (changing_view X cs pk_deserialize states cfg fuel) vs) e).
Proof.
  intros X cs pkd states cfg fuel continuous vs. induction vs as [|v vs IH]; intros e Hs Hh G B.
  - exists []. split; [easy|reflexivity].
  - assert (G' : forall v' r, In v' vs -> genuine_headers X (snd v') r) by (intros; apply G; now right).
    cbn [map] in B |- *. set (V := map (changing_view X cs pkd states cfg fuel) vs) in *.
    cbn [build_loop changing_view vw_finalized vw_prepare] in B |- *.
    destruct (fst v) as [fin|x|] eqn:Ev.
    2,3: exists []; split; [easy|reflexivity].
    destruct (fin <? wrap64 (e + 1)) eqn:Q.
    + destruct (IH e Hs Hh G' B) as (ns & N1 & N2).
      exists (mkNode (Ok fin) states (mo_headers (snd v 0%nat)) (mo_blocks (snd v 0%nat)) (mo_chain (snd v 0%nat)) fuel :: ns). split.
      * intros n [<-|Hn]; [exists v; split; [now left|]; cbn [nd_finalized nd_chain]; auto|].
        destruct (N1 n Hn) as (v' & V1 & V2). exists v'. split; [now right|exact V2].
      * cbn [map build_loop view vw_finalized nd_finalized]. rewrite Q. exact N2.
    + destruct (prepare_over X cs pkd states (snd v) cfg fuel e) as [[[[gi pre] post] slot]|x|] eqn:P.
      2,3: exists []; split; [easy|reflexivity].
      assert (B0 : (e + 2 * N.of_nat fuel + 2) * slots_per_epoch cs < 2 ^ 64).
      { apply (B (mkBuilt e gi pre post slot)). destruct continuous; [|now left]. destruct (build_loop true _ _). now left. }
      destruct (C79_predicted_as_from_one_node _ _ _ _ _ _ _ _ _ _ _ _ Hs B0 Hh (G v _ (or_introl eq_refl)) P) as (n & S & Pn).
      set (n' := mkNode (Ok fin) (nd_states n) (nd_headers n) (nd_blocks n) (nd_chain n) (nd_fuel n)).
      assert (S' : settled states (snd v) fuel n') by exact S.
      destruct continuous.
      * destruct (IH (epoch (finalized post)) Hs Hh G') as (ns & N1 & N2).
        { intros b Hb. apply B. destruct (build_loop true _ _). now right. }
        exists (n' :: ns). split.
        -- intros y [<-|Hn]; [exists v; split; [now left|]; cbn [n' nd_finalized]; auto|].
           destruct (N1 y Hn) as (v' & V1 & V2). exists v'. split; [now right|exact V2].
        -- cbn [map build_loop view vw_finalized vw_prepare n' nd_finalized]. rewrite Q.
           cbn [n' nd_states nd_headers nd_blocks nd_chain nd_fuel]. rewrite Pn. fold n'.
           destruct (build_loop true (map (view X cs pkd cfg) ns) _) as [b1 s1]. destruct (build_loop true V _) as [b2 s2].
           cbn [fst] in *. now rewrite N2.
      * exists [n']. split.
        -- intros y [<-|[]]. exists v; split; [now left|]; cbn [n' nd_finalized]; auto.
        -- cbn [map build_loop view vw_finalized vw_prepare n' nd_finalized]. rewrite Q.
           cbn [n' nd_states nd_headers nd_blocks nd_chain nd_fuel]. now rewrite Pn.
Qed.

(** *** Examples: the toy chain *)
(** Finality of checkpoint 9 seen one epoch later than on [p_chain]. *)
Definition q_late : Chain :=
  mkChain (fun slot => if slot =? 22 then ch_state p_chain 20 else ch_state p_chain slot) (ch_block p_chain) (ch_header_slot p_chain).
Lemma q_both : host_new toy_cs p_chain (finalized g_trusted) 5 = Some (Ok (g_trusted, g_atts)) /\
  host_new toy_cs q_late (finalized g_trusted) 5 = Some (Ok (g_trusted, g_atts)).
Proof. split; vm_compute; reflexivity. Qed.

(** A node that can be asked for states first and for blocks later, and at no moment for both. *)
Definition q_chain (k : nat) : Chain :=
  if (k <? 7)%nat then mkChain (ch_state p_chain) (fun _ => Err 5) (fun _ => Err 5)
  else mkChain (fun _ => Err 5) (ch_block p_chain) (fun _ => Err 5).
Example C79_collected_nonvacuous :
  host_new_over toy_cs q_chain (finalized g_trusted) 5 1 = Some (Ok (g_trusted, g_atts, 12%nat)) /\
  forall k, host_new toy_cs (q_chain k) (finalized g_trusted) 5 <> Some (Ok (g_trusted, g_atts)).
Proof.
  split; [vm_compute; reflexivity|]. intros k. unfold q_chain. destruct (k <? 7)%nat; vm_compute; discriminate.
Qed.
(** The states after slot 28 and the blocks after slot 28 do not matter. *)
Example C79_later_nonvacuous : exists e last t,
  first_confirming toy_cs p_chain (finalized g_trusted) e /\ state_at toy_cs p_chain e g_trusted /\ e < last /\ state_at toy_cs p_chain last t /\ finalized t <> finalized g_trusted.
Proof.
  destruct (C79_later_changes_do_not_matter toy_cs p_chain (finalized g_trusted) 5 g_trusted g_atts) as (e & last & t & A & B & C & D & E & _).
  - reflexivity.
  - vm_compute. reflexivity.
  - exact (proj1 q_both).
  - eauto 10.
Qed.

(** A request can be answered by a reorganised chain. Both chains would have led to the same input,
    but the state that confirms the trusted checkpoint is asked for twice, and if the chain is
    reorganised in between, the assertion on it fails: the program does not end with an error, it
    panics. *)
Definition q_reorg (k : nat) : Chain := if (k <? 3)%nat then p_chain else q_late.
Theorem C79_no_panic_refuted : ~ (forall cs ch trusted fuel k r,
  (forall i, exists s atts, host_new cs (ch i) trusted fuel = Some (Ok (s, atts))) ->
  host_new_over cs ch trusted fuel k = Some r -> r <> Panic).
Proof.
  intros H. apply (H toy_cs q_reorg (finalized g_trusted) 5%nat 1%nat Panic); [|vm_compute; reflexivity|reflexivity].
  intros i. exists g_trusted, g_atts. unfold q_reorg. destruct (i <? 3)%nat; [apply (proj1 q_both)|apply (proj2 q_both)].
Qed.

Lemma q_prepare m h : mo_blocks (m 0%nat) = r_blocks ->
  host_new_over toy_cs (fun k => mo_chain (m k)) (finalized g_trusted) 5 1 = Some (Ok (g_trusted, g_atts, 12%nat)) ->
  mo_headers (m 12%nat) (root (finalized h_post)) = Ok (Some h) -> mo_headers (m 13%nat) = h_headers ->
  prepare_over g_X toy_cs h_deserialize h_states m DEFAULT_CONFIG 5 9 = Ok (g_input, g_trusted, h_post, hd_slot h).
Proof.
  intros Hb Hc H12 H13. unfold prepare_over, state_at_epoch_boundary, state_at_epoch. rewrite Hb.
  change (h_states (start_slot toy_cs 9)) with (@Ok ProviderError _ (h_hstate 18 g_vs)). cbn [bind].
  change (hd_slot (hs_header (h_hstate 18 g_vs)) =? st_slot (hs_state (h_hstate 18 g_vs))) with true. cbn [bind map_err].
  change (r_blocks (hd_slot (hs_header (h_hstate 18 g_vs)))) with (@Ok N _ (Some g_header)). cbn [bind map_err ok_or].
  assert (E : bytes_eqb (hd_state_root g_header) (tree_root g_X (state_tree (sha256 g_X) (hs_state (h_hstate 18 g_vs)))) = true) by (vm_compute; reflexivity).
  rewrite E. cbn [assert_ bind].
  assert (E' : tree_root g_X (header_tree (sha256 g_X) g_header) = root (finalized g_trusted)) by (vm_compute; reflexivity).
  rewrite E'. change (mkCheckpoint 9 (root (finalized g_trusted))) with (finalized g_trusted).
  rewrite Hc. cbn [map_err bind]. cbv zeta. rewrite H13.
  assert (V : verify g_X DEFAULT_CONFIG (preflight_reader (finalized g_trusted) (host_reader toy_cs h_deserialize h_states (mo_headers (m 12%nat)) g_trusted g_atts))
    = Ok (h_post, hd_slot h)).
  { pose proof (r_preflight h_vs13 (or_introl eq_refl)) as P. fold h_states in P. unfold verify in *.
    apply bind_ok in P as (st0 & V1 & P). apply bind_ok in P as (atts0 & V2 & P). apply bind_ok in P as (st1 & V3 & P).
    apply bind_ok in P as (v & V4 & P). apply bind_ok in P as (sl & V5 & P). injection P as -> _.
    cbn [preflight_reader host_reader rd_consensus_state rd_attestations] in *. rewrite V1. cbn [bind]. rewrite V2. cbn [bind].
    match goal with |- context [fold_outcome ?f ?l ?a] => change (fold_outcome f l a) with
      (fold_outcome (process_link g_X DEFAULT_CONFIG (preflight_reader (finalized g_trusted) (host_reader toy_cs h_deserialize h_states h_headers g_trusted g_atts)) (finalized st0)) l a) end.
    rewrite V3. cbn [bind]. rewrite V4. cbn [bind preflight_reader host_reader rd_slot_for_block]. rewrite H12. reflexivity. }
  rewrite V. cbn [map_err bind]. change (finalized g_trusted) with (finalized g_trusted).
  pose proof h_input as I. unfold h_R, h_reads in I. rewrite I. reflexivity.
Qed.
(** The node that cannot be asked for everything at once, with its other answers. *)
Definition q_moment (k : nat) : Moment :=
  mkMoment (q_chain k) (if (k <? 1)%nat then r_blocks else fun _ => Err 6) (if (11 <? k)%nat then h_headers else fun _ => Err 7).
Example q_prepared : prepare_over g_X toy_cs h_deserialize h_states q_moment DEFAULT_CONFIG 5 9 = Ok (g_input, g_trusted, h_post, 24).
Proof.
  apply (q_prepare q_moment g_header12); [reflexivity|exact (proj1 C79_collected_nonvacuous)| |reflexivity].
  change (h_headers (root (finalized h_post)) = Ok (Some g_header12)). vm_compute. reflexivity.
Qed.
Lemma q_genuine : genuine_headers g_X q_moment (root (finalized h_post)).
Proof.
  assert (A : forall i h, mo_headers (q_moment i) (root (finalized h_post)) = Ok (Some h) -> h = g_header12).
  { intros i h. unfold q_moment. cbn [mo_headers]. destruct (11 <? i)%nat; [|discriminate].
    change (h_headers (root (finalized h_post))) with (@Ok N _ (Some g_header12)). congruence. }
  split.
  - intros i h E. apply A in E as ->. split; [|vm_compute; reflexivity].
    apply (sd_blocks _ _ _ _ _ _ _ h_sound (root (finalized h_post))); [now left|vm_compute; reflexivity].
  - intros i j h h' E E'. apply A in E as ->. apply A in E' as ->. apply injective_onb_ok. vm_compute. reflexivity.
Qed.

Lemma q_headers i r h : mo_headers (q_moment i) r = Ok (Some h) -> h_headers r = Ok (Some h).
Proof. unfold q_moment. cbn [mo_headers]. destruct (11 <? i)%nat; [auto|discriminate]. Qed.
Example C79_nonvacuous :
  entry (on_platform g_X 64) (fun _ => Some g_input) toy_cs DEFAULT_CONFIG [] = Ok (journal_encode g_trusted h_post 24) /\
  exists n, settled h_states q_moment 5 n /\
    prepare_input g_X toy_cs h_deserialize (nd_states n) (nd_headers n) (nd_blocks n) (collect_from toy_cs (nd_chain n) (nd_fuel n)) DEFAULT_CONFIG 9
      = Ok (g_input, g_trusted, h_post, 24).
Proof.
  split.
  - eapply (C79_guest_commits_the_prediction g_X 64 toy_cs h_deserialize h_states q_moment DEFAULT_CONFIG 5 9 g_input g_trusted h_post 24).
    + reflexivity.
    + vm_compute. reflexivity.
    + exact q_prepared.
    + exact q_genuine.
    + apply h_checkpoint.
    + intros i. destruct h_sound as [A B C D E F G H]. constructor; auto. intros r h Hr Eh. apply (H r h Hr). eapply q_headers; eauto.
    + apply r_steady. now left.
    + exact r_u64.
    + vm_compute. reflexivity.
    + vm_compute. discriminate.
    + reflexivity.
    + exact toy_sane.
    + repeat split; try (vm_compute; congruence). exists (2 ^ 48). reflexivity.
    + exact toy_permutes.
    + apply (r_fits 32). now left.
    + apply (r_fits 64). now right.
    + reflexivity.
    + exists g_reader. rewrite into_reader_platform. exact g_accepted.
  - apply (C79_predicted_as_from_one_node g_X toy_cs h_deserialize h_states q_moment DEFAULT_CONFIG 5 9 g_input g_trusted h_post 24).
    + reflexivity.
    + vm_compute. reflexivity.
    + exact g_hash32.
    + exact q_genuine.
    + exact q_prepared.
Qed.
(** One iteration of the loop. *)
Example C79_build_nonvacuous :
  fst (build_loop false (map (changing_view g_X toy_cs h_deserialize h_states DEFAULT_CONFIG 5) [(Ok 10, q_moment)]) 9)
  = [mkBuilt 9 g_input g_trusted h_post 24].
Proof. cbn [map build_loop changing_view vw_finalized vw_prepare fst snd]. change (10 <? wrap64 (9 + 1)) with false. cbv iota. rewrite q_prepared. reflexivity. Qed.

(** The slot of the prediction is not checked against the root: a node that gives another header during
    the preflight run than afterwards makes the host write a journal that the guest will not commit. *)
Definition q_lie (k : nat) : Moment :=
  mkMoment p_chain r_blocks
    (if (k <? 13)%nat then fun _ => Ok (Some (mkHeader 25 (hd_proposer_index g_header12) (hd_parent_root g_header12) (hd_state_root g_header12) (hd_body g_header12)))
     else h_headers).
Lemma q_lie_prepared : prepare_over g_X toy_cs h_deserialize h_states q_lie DEFAULT_CONFIG 5 9 = Ok (g_input, g_trusted, h_post, 25).
Proof.
  refine (q_prepare q_lie (mkHeader 25 (hd_proposer_index g_header12) (hd_parent_root g_header12) (hd_state_root g_header12) (hd_body g_header12)) _ _ _ _);
    [reflexivity| |reflexivity|reflexivity].
  vm_compute. reflexivity.
Qed.
Theorem C79_prediction_refuted : ~ (forall X cs pk_deserialize states m cfg fuel finalized_epoch gi pre post slot decode frame j,
  prepare_over X cs pk_deserialize states m cfg fuel finalized_epoch = Ok (gi, pre, post, slot) ->
  decode frame = Some gi -> entry X decode cs cfg frame = Ok j -> j = journal_encode pre post slot).
Proof.
  intros H.
  assert (E : entry g_X (fun _ => Some g_input) toy_cs DEFAULT_CONFIG [] = Ok (journal_encode g_trusted h_post 24)) by exact (proj1 C79_nonvacuous).
  specialize (H g_X toy_cs h_deserialize h_states q_lie DEFAULT_CONFIG 5%nat 9 g_input g_trusted h_post 25 (fun _ => Some g_input) [] _ q_lie_prepared eq_refl E).
  assert (D : bytes_eqb (journal_encode g_trusted h_post 24) (journal_encode g_trusted h_post 25) = true) by (rewrite H; apply bytes_eqb_refl).
  vm_compute in D. discriminate.
Qed.

(** A source that answers differently every time, with and without the cache. *)
Example C79_states_nonvacuous :
  let inner : provider nat nat := fun w _ => (Ok w, S w) in
  fst (requests inner 0%nat [5; 6; 5]) = [Ok 0%nat; Ok 1%nat; Ok 2%nat] /\
  fst (requests (cached_state_at_slot inner) ([], 0%nat) [5; 6; 5]) = [Ok 0%nat; Ok 1%nat; Ok 0%nat].
Proof. split; reflexivity. Qed.

Print Assumptions C79_constant_node.
Print Assumptions C79_collected_as_from_one_chain.
Print Assumptions C79_later_changes_do_not_matter.
Print Assumptions C79_states_do_not_change.
Print Assumptions C79_prepared_as_from_one_node.
Print Assumptions C79_predicted_as_from_one_node.
Print Assumptions C79_guest_commits_the_transition.
Print Assumptions C79_guest_commits_the_prediction.
Print Assumptions C79_build_as_from_one_node_each.
Print Assumptions C79_no_panic_refuted.
Print Assumptions C79_prediction_refuted.
Print Assumptions C79_nonvacuous.
