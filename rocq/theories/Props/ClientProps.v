(** C64: a client that follows proofs from a trusted state. *)
From Coq Require Import List Arith ZArith NArith Bool Lia.
From Coq Require Import ZifyBool ZifyNat ZifyN.
From Coq.Init Require Import Byte.
From Verif.Model Require Import Base Types ConsensusState Multiproof Builder Gindices Committee Verify GuestReader Guest Cli InputCodec.
From Verif.Spec Require Import FFG Merkle MultiproofSpec Ssz Beacon Committees Registry VerifySpec Safety InputCodecSpec ClientSpec.
From Verif.Proof Require Import BaseLemmas VerifyP GuestP SafetyP EndToEndP ClientP.
From Verif.Props Require Import VerifyProps GuestToy InputCodecProps.
Import ListNotations.
Open Scope N_scope.
Notation length := List.length.

Section Client.
Context (X : Externals) (C : Codec) (w : N) (cs : ChainSpec) (cfg : Config).
Notation proven := (proven X C w cs cfg).
Notation explained := (explained X C w cs cfg).

(** The votes behind a client's moves are one chain of supermajority links: from the justified checkpoint the client started
    with to the one it has now, through every checkpoint it held finalized on the way. The last
    finalized one is the source of a link of one epoch. *)
Theorem C64_one_chain s js u vs : explained s js u vs ->
  one_chain (current_justified s) (links vs) (current_justified u) /\
  (forall v, In v (votes vs) -> rd_chain_spec (v_data v) = cs /\ exists av P, backed X cfg v av P) /\
  (js <> [] -> epoch (current_justified u) = epoch (finalized u) + 1 /\
               In (mkLink (finalized u) (current_justified u)) (links vs)).
Proof.
  induction 1 as [s|s gi frame r gs slot t js u vs R1 R2 R3 R4 R5 R6 H (I1 & I2 & I3)].
  - split; [constructor|]. split; [easy|easy].
  - split; [|split].
    + unfold links; cbn [votes flat_map]; fold (votes vs); rewrite map_app; unfold step_votes at 1; cbn [sp_groups sp_reader]; rewrite map_map; cbn [v_link]. eapply one_chain_app; [|exact I1].
      apply accepted_one_chain in R5. exact R5.
    + intros v Hv. cbn [votes flat_map] in Hv. apply in_app_iff in Hv as [Hv|Hv]; [|now apply I2].
      apply in_map_iff in Hv as (g & <- & Hg). rewrite Forall_forall in R6. destruct (R6 g Hg) as [_ Hs].
      split; [|exact Hs]. cbn [v_data guest_reader rd_chain_spec].
      apply into_reader_ok in R3 as (sr & si & vals & _ & _ & _ & _ & _ & _ & _ & _ & _ & _ & R0 & _). exact R0.
    + intros _. unfold links; cbn [votes flat_map]; fold (votes vs); rewrite map_app; unfold step_votes at 1; cbn [sp_groups sp_reader]; rewrite map_map; cbn [v_link]. destruct js as [|j js].
      * inversion H; subst. apply accepted_finalizes in R5 as [A1 A2]. split; [exact A2|]. apply in_or_app. now left.
      * destruct I3 as [A1 A2]; [easy|]. split; [exact A1|]. apply in_or_app. now right.
Qed.
Lemma explained_app s p t vp q u vq : explained s p t vp -> explained t q u vq -> explained s (p ++ q) u (vp ++ vq).
Proof.
  induction 1; intros Hq; cbn [app]; [exact Hq|]. econstructor; eauto.
Qed.
(** Histories can be cut anywhere. *)
Theorem C64_history s p q u vs : explained s (p ++ q) u vs ->
  exists t vp vq, vs = vp ++ vq /\ explained s p t vp /\ explained t q u vq.
Proof.
  revert s vs. induction p as [|j p IH]; intros s vs H; cbn [app] in H.
  - exists s, [], vs. split; [reflexivity|]. split; [constructor|exact H].
  - inversion H as [|? gi frame r gs slot t ? ? vs' R1 R2 R3 R4 R5 R6 H']; subst.
    apply IH in H' as (m & vp & vq & -> & H1 & H2). exists m, (mkStep gi r gs :: vp), vq.
    split; [reflexivity|]. split; [|exact H2]. econstructor; eauto.
Qed.
(** The finalized epoch of a client only grows, so every proof after the first non-genesis one starts
    from an epoch of at least 1; if the finalized root a proof starts from commits to a state, its
    votes are those of a supermajority of that state's validators. *)
Theorem C64_anchored s js u ps : explained s js u ps ->
  far_future_epoch cs = 2 ^ 64 - 1 -> epoch_lookahead_limit cfg <= max_seed_lookahead cs ->
  forall p h st, In p ps -> committed X (sp_input p) h st ->
  1 <= epoch (finalized (gi_consensus_state (sp_input p))) ->
  st_slot st / slots_per_epoch cs = epoch (finalized (gi_consensus_state (sp_input p))) ->
  epoch (finalized s) <= epoch (finalized (gi_consensus_state (sp_input p))) /\
  Forall (fun g => signed_by_state X cfg cs st (fst g) (snd g)) (sp_groups p).
Proof.
  intros H Hff Hl. induction H as [s|s gi frame r gs slot t js u ps R1 R2 R3 R4 R5 R6 H IH]; intros p h st Hin Hc Ht Hs; [easy|].
  destruct Hin as [<-|Hin].
  - cbn [sp_input sp_groups] in *. rewrite R2 in *. split; [lia|]. rewrite Forall_forall in *. intros g Hg. destruct (R6 g Hg) as [[B _] (av & P & S)].
    apply (guest_link X cs cfg gi r h st (fst g) (snd g) av P); auto; rewrite ?R2; auto.
    pose proof (accepted_targets _ _ _ (fst g) R5 (in_map fst _ _ Hg)). lia.
  - destruct (IH p h st Hin Hc Ht Hs) as [A B]. split; [|exact B]. apply accepted_progress in R5. lia.
Qed.
(** Accountable safety of clients: two clients that started from the same state and hold
    conflicting finalized checkpoints, after any number of proofs each, exhibit two supermajority
    links that violate a slashing condition. The validators that signed both weigh at least
    factor/quotient of the two active sets together less any registry containing both. *)
Theorem C64_accountable_safety s ja jb ua ub va vb :
  ja <> [] -> jb <> [] -> explained s ja ua va -> explained s jb ub vb ->
  conflicting (current_justified s) (links va) (links vb) (finalized ua) (finalized ub) ->
  exists a b ava avb Pa Pb,
    In a (votes va) /\ In b (votes vb) /\ slashable (v_link a) (v_link b) /\
    backed X cfg a ava Pa /\ backed X cfg b avb Pb /\
    let inc := effective_balance_increment cs in
    (0 < inc -> 2 * inc <= weight ava -> 2 * inc <= weight avb ->
     forall all both, NoDup (map fst all) -> incl ava all -> incl avb all ->
       in_both (unslashed Pa) (unslashed Pb) both ->
       justification_threshold_factor cfg * (weight ava + weight avb)
         <= justification_threshold_quotient cfg * (weight both + weight all)).
Proof.
  intros Na Nb Ea Eb Hc.
  destruct (C64_one_chain _ _ _ _ Ea) as (A1 & A2 & A3), (C64_one_chain _ _ _ _ Eb) as (B1 & B2 & B3).
  destruct (A3 Na) as [A4 A5]. destruct (B3 Nb) as [B4 B5]. apply one_chain_chain in A1, B1.
  assert (G : exists a b, In a (links va) /\ In b (links vb) /\ slashable a b).
  { destruct Hc as [[He Hne]|[[Hlt Hj]|[Hlt Hj]]].
    - eapply skip_slashable; [exact A1|exact B1|exact A5|exact A4|exact B5|exact B4|lia|]. intros J. apply Hne.
      eapply (chain_same_epoch _ (links vb)); eauto. apply (chain_source _ _ _ B1 B5).
    - eapply skip_slashable; [exact A1|exact B1|exact A5|exact A4|exact B5|exact B4|lia|exact Hj].
    - destruct (skip_slashable _ _ _ _ _ _ _ B1 A1 B5 B4 A5 A4) as (b & a & H1 & H2 & H3); auto; [lia|].
      exists a, b. repeat split; auto. now apply slashable_sym. }
  destruct G as (la & lb & Ha & Hb & Hs). apply in_map_iff in Ha as (a & <- & Ha), Hb as (b & <- & Hb).
  destruct (A2 a Ha) as [Ca (ava & Pa & Ba)]. destruct (B2 b Hb) as [Cb (avb & Pb & Bb)].
  exists a, b, ava, avb, Pa, Pb. repeat (split; [assumption|]). intros inc Hi Ta Tb all both Nd Ia Ib Hboth.
  unfold backed in Ba, Bb. eapply (quorum_overlap X cfg (v_data a) (v_data b)); eauto.
Qed.
(** Without slashable votes the clients agree: the finalized checkpoint of the one behind lies on the
    chain of the one ahead. *)
Theorem C64_agreement s ja jb ua ub va vb :
  ja <> [] -> jb <> [] -> explained s ja ua va -> explained s jb ub vb ->
  (forall a b, In a (votes va) -> In b (votes vb) -> ~ slashable (v_link a) (v_link b)) ->
  epoch (finalized ua) <= epoch (finalized ub) ->
  justified_by (current_justified s) (links vb) (finalized ua) /\
  (epoch (finalized ua) = epoch (finalized ub) -> finalized ua = finalized ub).
Proof.
  intros Na Nb Ea Eb Hn Hle.
  assert (NC : ~ conflicting (current_justified s) (links va) (links vb) (finalized ua) (finalized ub)).
  { intros Hc. destruct (C64_accountable_safety s ja jb ua ub va vb Na Nb Ea Eb Hc) as (a & b & ava & avb & Pa & Pb & H1 & H2 & H3 & _).
    exact (Hn a b H1 H2 H3). }
  assert (Dec : forall x y : Checkpoint, {x = y} + {x <> y}).
  { intros x y. destruct (checkpoint_eqb x y) eqn:E; [left; now apply checkpoint_eqb_eq|right; now apply checkpoint_eqb_neq]. }
  assert (J : epoch (finalized ua) = epoch (finalized ub) -> finalized ua = finalized ub).
  { intros He. destruct (Dec (finalized ua) (finalized ub)) as [|Ne]; [assumption|]. exfalso. apply NC. now left. }
  split; [|exact J].
  destruct (N.eq_dec (epoch (finalized ua)) (epoch (finalized ub))) as [He|He].
  - rewrite (J He). destruct (C64_one_chain _ _ _ _ Eb) as (B1 & B2 & B3). destruct (B3 Nb) as [_ B4].
    apply one_chain_chain in B1. exact (proj1 (chain_source _ _ _ B1 B4)).
  - destruct (in_dec Dec (finalized ua) (current_justified s :: map target (links vb))) as [[E|I]|I].
    + left. now symmetry.
    + right. apply in_map_iff in I as (l & E & I). eauto.
    + exfalso. apply NC. right. left. split; [lia|]. intros [E|(l & I' & E)]; apply I; [left; now symmetry|right].
      apply in_map_iff. eauto.
Qed.
Hypothesis Codec_ok : sane_codec C.
Hypothesis Width : 32 <= w <= 64.

(** Every move of the client is explained by attestations. *)
Theorem C64_explained s js u : follows proven s js u -> exists vs, explained s js u vs.
Proof.
  induction 1 as [s|s j t js u Hp D1 D2 Hf (vs & IH)]; [eexists; constructor|].
  destruct (proven_explained X C w cs cfg j s t Codec_ok Width Hp D1 D2) as (frame & gi & r & gs & slot & -> & R1 & R2 & R3 & R4 & R5 & R6 & _).
  eexists. econstructor; eauto.
Qed.
(** Each journal finalizes at least one more epoch and at most the lookahead limit less one. *)
Theorem C64_progress s js u : follows proven s js u ->
  let n := N.of_nat (length js) in
  epoch (finalized s) + n <= epoch (finalized u) /\
  epoch (finalized u) + n <= epoch (finalized s) + n * epoch_lookahead_limit cfg.
Proof.
  induction 1 as [s|s j t js u Hp D1 D2 Hf IH]; [cbn; lia|]. cbn zeta in *.
  destruct (proven_explained X C w cs cfg j s t Codec_ok Width Hp D1 D2) as (frame & gi & r & gs & slot & -> & R1 & R2 & R3 & R4 & R5 & R6 & _).
  pose proof (accepted_progress _ _ _ R5) as P. pose proof (accepted_finalizes _ _ _ R5) as [Hin He].
  apply in_map_iff in Hin as (g & Eg & Hg). rewrite Forall_forall in R6. destruct (R6 g Hg) as [[B _] _].
  rewrite Eg in B. cbn [target] in B. cbn [length]. split; [lia|].
  replace (N.of_nat (S (length js))) with (N.of_nat (length js) + 1) by lia. lia.
Qed.
(** The journals decide the client's state; no journal is accepted twice. *)
Theorem C64_deterministic s js u u' : follows proven s js u -> follows proven s js u' -> u = u'.
Proof.
  intros H. revert u'. induction H as [s|s j t js u Hp D1 D2 Hf IH]; intros u' H'; inversion H' as [|? ? t' ? ? G1 G2 G3 G4]; subst; [reflexivity|].
  apply IH. rewrite D2 in G3. injection G3 as ->. exact G4.
Qed.
Theorem C64_no_replay s js u : follows proven s js u ->
  NoDup js /\ forall j, In j js -> abi_decode (firstn 128 j) <> Ok u.
Proof.
  intros H.
  assert (L : forall s js u, follows proven s js u -> forall j, In j js ->
    exists t, abi_decode (firstn 128 j) = Ok t /\ epoch (finalized s) <= epoch (finalized t) < epoch (finalized u)).
  { clear s js u H. intros s js u H. induction H as [s|s j t js u Hp D1 D2 Hf IH]; intros j' Hj; [easy|]. destruct Hj as [<-|Hj].
    - exists s. split; [exact D1|]. pose proof (C64_progress s (j :: js) u (follows_step _ _ _ _ _ _ Hp D1 D2 Hf)) as P. cbn [length] in P. lia.
    - destruct (IH j' Hj) as (m & E & B). exists m. split; [exact E|].
      pose proof (C64_progress s [j] t (follows_step _ _ _ _ _ _ Hp D1 D2 (follows_nil _ _))) as P. cbn [length] in P. lia. }
  split.
  - induction H as [s|s j t js u Hp D1 D2 Hf IH]; [constructor|]. constructor; [|exact IH].
    intros Hj. destruct (L t js u Hf j Hj) as (m & E & B). rewrite D1 in E. injection E as <-.
    pose proof (C64_progress s [j] t (follows_step _ _ _ _ _ _ Hp D1 D2 (follows_nil _ _))) as P. cbn [length] in P. lia.
  - intros j Hj E. destruct (L s js u H j Hj) as (m & E' & B). rewrite E in E'. injection E' as <-. lia.
Qed.

(** What two clients see: the same epoch finalized with different roots is enough. *)
Theorem C64_same_epoch s ja jb ua ub :
  ja <> [] -> jb <> [] -> follows proven s ja ua -> follows proven s jb ub ->
  epoch (finalized ua) = epoch (finalized ub) -> root (finalized ua) <> root (finalized ub) ->
  exists va vb a b ava avb Pa Pb,
    explained s ja ua va /\ explained s jb ub vb /\ In a (votes va) /\ In b (votes vb) /\
    slashable (v_link a) (v_link b) /\ backed X cfg a ava Pa /\ backed X cfg b avb Pb.
Proof.
  intros Na Nb Fa Fb He Hr. destruct (C64_explained _ _ _ Fa) as [va Ea], (C64_explained _ _ _ Fb) as [vb Eb].
  destruct (C64_accountable_safety s ja jb ua ub va vb Na Nb Ea Eb) as (a & b & ava & avb & Pa & Pb & H1 & H2 & H3 & H4 & H5 & _).
  { left. split; [exact He|]. congruence. }
  exists va, vb, a, b, ava, avb, Pa, Pb. auto 10.
Qed.
End Client.

(** *** Examples *)
(** Two proofs in a row on the toy chain: 10 -> 12 -> 13 finalizes epoch 12, then 13 -> 14 finalizes
    epoch 13, proven from the state of the block of epoch 12. *)
Definition c_state12 : State :=
  mkState false toy_gvr 24 (fork_at_epoch toy_cs 12) g_vs (mkCheckpoint 9 g_root) 15 16 (fun k => MLeaf (toy_root k)).
Definition c_state_root : bytes := Eval vm_compute in mroot g_hash (state_tree g_hash c_state12).
Definition c_header12 : Header := mkHeader 24 4 (toy_root 23) c_state_root (MLeaf (toy_root 2323)).
Definition c_root12 : bytes := Eval vm_compute in mroot g_hash (header_tree g_hash c_header12).
Definition c_header13 : Header := mkHeader 26 5 (toy_root 25) (toy_root 2626) (MLeaf (toy_root 2525)).
Definition c_root13 : bytes := Eval vm_compute in mroot g_hash (header_tree g_hash c_header13).
Definition c_full (l : Link) : list Attestation :=
  let slot := epoch (target l) * 2 in
  [g_att slot l [true; true; true; true] [4; 5; 6; 7]; g_att (slot + 1) l [true; true; true; true] [0; 1; 2; 3]].
Definition c_cp (e : N) (r : bytes) : Checkpoint := mkCheckpoint e r.
Definition c_l1 := mkLink (c_cp 10 (toy_root 10)) (c_cp 12 c_root12).
Definition c_l2 := mkLink (c_cp 12 c_root12) (c_cp 13 c_root13).
Definition c_l3 := mkLink (c_cp 13 c_root13) (c_cp 14 (toy_root 14)).
Definition c_patch (e : N) : N * StatePatch := (e, mkStatePatch [(e - 2, toy_root (e - 2))] []).
Definition c_input1 : GuestInput :=
  mkGuestInput g_block_proof g_state_proof g_validators_proof (map g_key [0; 1; 2; 3; 4; 5; 6; 7; 50])
    [c_patch 12; c_patch 13] g_trusted (c_full c_l1 ++ c_full c_l2)
    [g_build (header_tree g_hash c_header12) [block_slot_gindex]].
Definition c_mid : ConsensusState := mkCS (c_cp 13 c_root13) (c_cp 12 c_root12).
Definition c_end : ConsensusState := mkCS (c_cp 14 (toy_root 14)) (c_cp 13 c_root13).
Definition c_input2 : GuestInput :=
  mkGuestInput (g_build (header_tree g_hash c_header12) [state_root_gindex])
    (g_build (state_tree g_hash c_state12)
       [genesis_validators_root_gindex; slot_gindex; fork_previous_version_gindex; fork_current_version_gindex;
        fork_epoch_gindex; validators_gindex; finalized_checkpoint_epoch_gindex; earliest_exit_epoch_gindex;
        earliest_consolidation_epoch_gindex])
    g_validators_proof (map g_key [0; 1; 2; 3; 4; 5; 6; 7; 50]) [c_patch 14] c_mid (c_full c_l3)
    [g_build (header_tree g_hash c_header13) [block_slot_gindex]].
Definition c_j1 : bytes := journal_encode g_trusted c_mid 24.
Definition c_j2 : bytes := journal_encode c_mid c_end 26.
Definition c_proven := ClientSpec.proven g_X n_codec 32 toy_cs DEFAULT_CONFIG.
Ltac run := match goal with |- ?g = Ok ?j =>
  let E := fresh in assert (E : match g with Ok x => bytes_eqb x j | _ => false end = true) by (vm_compute; reflexivity);
  destruct g; [f_equal; now apply bytes_eqb_eq|discriminate|discriminate] end.
Lemma c_proven1 : c_proven c_j1.
Proof. exists (encode_input_stdin (encode_input n_codec c_input1)). run. Qed.
Lemma c_proven2 : c_proven c_j2.
Proof. exists (encode_input_stdin (encode_input n_codec c_input2)). run. Qed.
Example C64_nonvacuous : sane_codec n_codec /\ follows c_proven g_trusted [c_j1; c_j2] c_end /\
  finalized g_trusted = c_cp 9 g_root /\ finalized c_end = c_cp 13 c_root13.
Proof.
  split; [exact n_sane|]. split; [|split; reflexivity].
  apply (follows_step _ _ _ c_mid); [exact c_proven1|vm_compute; reflexivity|vm_compute; reflexivity|].
  apply (follows_step _ _ _ c_end); [exact c_proven2|vm_compute; reflexivity|vm_compute; reflexivity|]. constructor.
Qed.
(** The second proof starts from a root that commits to [c_state12]. *)
Example C64_anchored_nonvacuous : committed g_X c_input2 c_header12 c_state12 /\
  st_slot c_state12 / slots_per_epoch toy_cs = epoch (finalized c_mid).
Proof.
  split; [|reflexivity]. destruct g_wf as (_ & _ & W1 & W2 & W3 & W4 & W5 & W6 & W7 & W8 & W9).
  constructor; [exact g_hash32|exact g_pk48| | |vm_compute; reflexivity|vm_compute; reflexivity| | | |].
  - repeat split; vm_compute; reflexivity.
  - unfold wf_state. repeat (split; [first [exact W2|exact W4|vm_compute; reflexivity|split; [|split]; vm_compute; reflexivity]|]). exact W9.
  - apply checkableb_ok. vm_compute. reflexivity.
  - apply checkableb_ok. vm_compute. reflexivity.
  - exact g_check_registry.
  - split; repeat constructor.
Qed.
(** Every toy validator also votes for a fork: another client is led to another checkpoint of epoch
    12, and the conflict with [c_mid] is seen from the journals. *)
Definition c_fork : ConsensusState := mkCS (c_cp 13 (toy_root 13)) (c_cp 12 g_root12).
Definition c_jf : bytes := journal_encode g_trusted c_fork 24.
Lemma c_provenf : c_proven c_jf.
Proof. exists (encode_input_stdin (encode_input n_codec g_input)). run. Qed.
Example C64_conflict_nonvacuous : follows c_proven g_trusted [c_jf] c_fork /\ follows c_proven g_trusted [c_j1] c_mid /\
  epoch (finalized c_fork) = epoch (finalized c_mid) /\ root (finalized c_fork) <> root (finalized c_mid) /\
  exists va vb a b, explained g_X n_codec 32 toy_cs DEFAULT_CONFIG g_trusted [c_jf] c_fork va /\
    explained g_X n_codec 32 toy_cs DEFAULT_CONFIG g_trusted [c_j1; c_j2] c_end vb /\
    conflicting (current_justified g_trusted) (links va) (links vb) (finalized c_fork) (finalized c_end) /\
    In a (votes va) /\ In b (votes vb) /\ slashable (v_link a) (v_link b).
Proof.
  assert (F : follows c_proven g_trusted [c_jf] c_fork).
  { apply (follows_step _ _ _ c_fork); [exact c_provenf|vm_compute; reflexivity|vm_compute; reflexivity|constructor]. }
  assert (Fm : follows c_proven g_trusted [c_j1] c_mid).
  { apply (follows_step _ _ _ c_mid); [exact c_proven1|vm_compute; reflexivity|vm_compute; reflexivity|constructor]. }
  assert (Ne : c_root12 <> g_root12) by (vm_compute; congruence).
  split; [exact F|]. split; [exact Fm|]. split; [reflexivity|]. split; [cbn [finalized c_fork c_mid root c_cp]; congruence|].
  assert (W : 32 <= 32 <= 64) by lia.
  destruct (C64_explained g_X n_codec 32 toy_cs DEFAULT_CONFIG n_sane W _ _ _ F) as [va Ea].
  assert (Fe : follows c_proven c_mid [c_j2] c_end).
  { apply (follows_step _ _ _ c_end); [exact c_proven2|vm_compute; reflexivity|vm_compute; reflexivity|constructor]. }
  destruct (C64_explained g_X n_codec 32 toy_cs DEFAULT_CONFIG n_sane W _ _ _ Fm) as [vp Ep].
  destruct (C64_explained g_X n_codec 32 toy_cs DEFAULT_CONFIG n_sane W _ _ _ Fe) as [vq Eq].
  pose proof (explained_app _ _ _ _ _ _ _ _ _ _ _ _ Ep Eq) as Eb. cbn [app] in Eb.
  assert (Hc : conflicting (current_justified g_trusted) (links va) (links (vp ++ vq)) (finalized c_fork) (finalized c_end)).
  { right. left. split; [reflexivity|]. intros J.
    destruct (C64_one_chain _ _ _ _ _ _ _ _ _ Eb) as (O1 & _ & _). apply one_chain_chain in O1.
    destruct (C64_one_chain _ _ _ _ _ _ _ _ _ Ep) as (_ & _ & O3). destruct O3 as [_ O3]; [discriminate|].
    assert (O4 : In (mkLink (finalized c_mid) (current_justified c_mid)) (links (vp ++ vq))) by (unfold links, votes; rewrite flat_map_app, map_app; apply in_or_app; now left).
    apply (chain_source _ _ _ O1) in O4 as [O4 _]. cbn [source] in O4.
    pose proof (chain_same_epoch _ _ _ _ O1 O4 J eq_refl) as E. apply Ne. now apply (f_equal root) in E. }
  destruct (C64_accountable_safety g_X n_codec 32 toy_cs DEFAULT_CONFIG g_trusted [c_jf] [c_j1; c_j2] c_fork c_end va (vp ++ vq)) as (a & b & _ & _ & _ & _ & H1 & H2 & H3 & _); auto; try discriminate.
  exists va, (vp ++ vq), a, b. auto 10.
Qed.

Print Assumptions C64_explained.
Print Assumptions C64_one_chain.
Print Assumptions C64_anchored.
Print Assumptions C64_history.
Print Assumptions C64_progress.
Print Assumptions C64_deterministic.
Print Assumptions C64_no_replay.
Print Assumptions C64_accountable_safety.
Print Assumptions C64_same_epoch.
Print Assumptions C64_agreement.
Print Assumptions C64_nonvacuous.
Print Assumptions C64_anchored_nonvacuous.
Print Assumptions C64_conflict_nonvacuous.
