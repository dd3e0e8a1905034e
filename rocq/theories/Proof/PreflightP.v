(** The guest repeats what the host's preflight run has done. *)
From Coq Require Import List Arith ZArith NArith Bool Lia Sorted.
From Coq Require Import ZifyBool ZifyNat ZifyN.
From Verif.Model Require Import Base Types ConsensusState Multiproof Committee Verify GuestReader HostChain HostStore HostInput.
From Verif.Spec Require Import FFG Beacon GuestSpec Committees VerifySpec HostInputSpec.
From Verif.Proof Require Import BaseLemmas CommitteeP VerifyP VerifyMoreP EndToEndP HostInputP HostGuestP ReplayP.
Import ListNotations.
Open Scope N_scope.
Notation length := List.length.

(** ** The host's active sets *)
Lemma bm_get_notin {V} (m : bmap V) k : ~ In k (map fst m) -> bm_get m k = None.
Proof. apply bm_get_None. Qed.
Lemma active_list pkd e : forall vs i l,
  map_outcome (fun iv => vi <- validator_info pkd (snd iv) ;; Ok (fst iv, vi)) (filter (fun iv => is_active_validator (snd iv) e) (enumerate i vs)) = Ok l ->
  bm_sorted l /\ (forall k, In k (map fst l) -> i <= k) /\
  forall k, bm_get l k = (if k <? i then None else
    match nth_error vs (N.to_nat (k - i)) with
    | Some v => if is_active_validator v e then match pkd (v_pubkey v) with Some pk => Some (record_of v pk) | None => None end else None
    | None => None
    end) /\ (i <= k -> forall v, nth_error vs (N.to_nat (k - i)) = Some v -> is_active_validator v e = true -> pkd (v_pubkey v) <> None).
Proof.
  induction vs as [|v vs IH]; intros i l E.
  - cbn in E. injection E as <-. split; [constructor|]. split; [easy|]. intros k. split.
    + cbn. destruct (k <? i); [reflexivity|]. destruct (N.to_nat (k - i)); reflexivity.
    + intros _ w Hw. destruct (N.to_nat (k - i)); discriminate.
  - cbn [enumerate filter snd] in E. destruct (is_active_validator v e) eqn:Ea.
    + cbn [map_outcome fst snd] in E. apply bind_ok in E as (x & E1 & E). apply bind_ok in E1 as (vi & E1 & E2). injection E2 as <-.
      apply bind_ok in E as (l' & E2 & E). injection E as <-.
      unfold validator_info in E1. apply bind_ok in E1 as (pk & E1 & E3). injection E3 as <-. apply ok_or_ok in E1.
      destruct (IH (i + 1) l' E2) as (So & B & G). split.
      { apply bm_sorted_keys. cbn [map fst]. constructor; [now apply bm_sorted_keys|]. apply Forall_forall. intros k Hk. specialize (B k Hk). lia. }
      split. { intros k [<-|Hk]; cbn [fst]; [lia|]. specialize (B k Hk). lia. }
      intros k. cbn [bm_get]. destruct (N.eqb_spec k i) as [-> |Hn].
      * rewrite N.ltb_irrefl, N.sub_diag. cbn [N.to_nat nth_error]. rewrite Ea, E1. split; [reflexivity|]. intros _ w [= <-] _. congruence.
      * destruct (G k) as [G1 G2]. rewrite G1. destruct (N.ltb_spec k i), (N.ltb_spec k (i + 1)); try lia.
        { split; [reflexivity|lia]. }
        replace (N.to_nat (k - i)) with (S (N.to_nat (k - (i + 1)))) by lia. cbn [nth_error]. split; [reflexivity|]. intros _. apply G2. lia.
    + destruct (IH (i + 1) l E) as (So & B & G). split; [exact So|]. split. { intros k Hk. specialize (B k Hk). lia. }
      intros k. destruct (G k) as [G1 G2]. rewrite G1. destruct (N.ltb_spec k i), (N.ltb_spec k (i + 1)); try lia.
      * split; [reflexivity|lia].
      * assert (k = i) as -> by lia. rewrite N.sub_diag. cbn [N.to_nat nth_error]. rewrite Ea. split; [reflexivity|]. intros _ w [= <-]. congruence.
      * replace (N.to_nat (k - i)) with (S (N.to_nat (k - (i + 1)))) by lia. cbn [nth_error]. split; [reflexivity|]. intros _. apply G2. lia.
Qed.
Lemma host_voters pkd st e l : active_from_state pkd st e = Ok l -> voters_at pkd (st_validators (hs_state st)) e l.
Proof.
  intros E. apply active_list in E as (S & _ & G). split; [now apply bm_sorted_keys|].
  intros i. destruct (G i) as [G1 G2]. rewrite G1. destruct (N.ltb_spec i 0); [lia|]. rewrite N.sub_0_r in *.
  destruct (nth_error _ _) as [v|]; [|reflexivity]. fold (is_active_validator v e). destruct (is_active_validator v e) eqn:Ea; [|reflexivity].
  specialize (G2 ltac:(lia) v eq_refl Ea). destruct (pkd (v_pubkey v)) as [pk|] eqn:Ek; [|easy].
  eexists. split; [reflexivity|]. unfold voter_of, record_of. cbn [pubkey effective_balance slashed]. auto.
Qed.
(** ** Same voters *)
Lemma voters_unique pkd vs vs' e l l' : voters_at pkd vs e l -> voters_at pkd vs' e l' ->
  (forall i, voting_entry vs e i = voting_entry vs' e i) -> map on_snd l = map on_snd l'.
Proof.
  intros [S1 V1] [S2 V2] H.
  assert (So : forall m : list (N * ValidatorInfo), StronglySorted N.lt (map fst m) -> bm_sorted (map on_snd m)).
  { intros m Hm. apply bm_sorted_keys. rewrite map_map. exact Hm. }
  pose proof (So _ S1) as T1. pose proof (So _ S2) as T2. apply sorted_set_unique; [now apply bm_sorted_keys|now apply bm_sorted_keys|].
  assert (G : forall i, bm_get (map on_snd l) i = bm_get (map on_snd l') i).
  { intros i. rewrite !bm_get_on_snd. specialize (V1 i). specialize (V2 i). specialize (H i). unfold voting_entry in H.
    destruct (nth_error vs (N.to_nat i)) as [v|]; [destruct ((v_activation_epoch v <=? e) && (e <? v_exit_epoch v))|];
    (destruct (nth_error vs' (N.to_nat i)) as [v'|]; [destruct ((v_activation_epoch v' <=? e) && (e <? v_exit_epoch v'))|]);
    try discriminate H; try (rewrite V1, V2; reflexivity).
    injection H as H1 H2 H3. destruct V1 as (w & -> & W1 & W2 & W3), V2 as (w' & -> & W1' & W2' & W3'). cbn [option_map]. f_equal. unfold voter.
    rewrite H1 in W1. f_equal; congruence. }
  intros [i v]. rewrite <- !bm_get_iff by auto. now rewrite G.
Qed.
Lemma filter_count {A} (f : A -> bool) (vs : list A) :
  length (filter (fun k => match nth_error vs k with Some v => f v | None => false end) (seq 0 (length vs))) = length (filter f vs).
Proof.
  enough (G : forall k, length (filter (fun j => match nth_error vs (j - k) with Some v => f v | None => false end) (seq k (length vs))) = length (filter f vs)).
  { rewrite <- (G 0%nat). f_equal. apply filter_ext. intros j. now rewrite Nat.sub_0_r. }
  induction vs as [|v vs IH]; intros k; [reflexivity|]. cbn [length seq filter]. rewrite Nat.sub_diag. cbn [nth_error].
  assert (E : filter (fun j => match nth_error (v :: vs) (j - k) with Some w => f w | None => false end) (seq (S k) (length vs))
            = filter (fun j => match nth_error vs (j - S k) with Some w => f w | None => false end) (seq (S k) (length vs))).
  { apply filter_ext_in. intros j Hj. apply in_seq in Hj. replace (j - k)%nat with (S (j - S k)) by lia. reflexivity. }
  rewrite E. destruct (f v); cbn [length]; now rewrite IH.
Qed.
Lemma voters_small pkd vs e l : voters_at pkd vs e l ->
  N.of_nat (length l) = active_count vs e /\ Forall (fun v => fst v < N.of_nat (length vs)) l.
Proof.
  intros [S V]. unfold active_count. rewrite <- filter_count.
  assert (B : forall i, In i (map fst l) <-> exists v, nth_error vs (N.to_nat i) = Some v /\ (v_activation_epoch v <=? e) && (e <? v_exit_epoch v) = true).
  { intros i. specialize (V i). destruct (nth_error vs (N.to_nat i)) as [v|].
    - destruct (_ && _) eqn:E.
      + destruct V as (vi & V & _). split; [eauto|]. intros _. apply bm_get_in in V. now apply (in_map fst) in V.
      + apply bm_get_None in V. split; [easy|]. intros (w & [= <-] & H). congruence.
    - apply bm_get_None in V. split; [easy|]. intros (w & H & _). discriminate. }
  assert (ND : NoDup (map N.to_nat (map fst l))).
  { apply FinFun.Injective_map_NoDup; [intros a b Hab; lia|]. apply bm_sorted_NoDup. now apply bm_sorted_keys. }
  split.
  - f_equal. rewrite <- (map_length fst l), <- (map_length N.to_nat (map fst l)). apply Nat.le_antisymm.
    + apply NoDup_incl_length; [exact ND|]. intros k Hk. apply in_map_iff in Hk as (i & <- & Hi). apply B in Hi as (v & Hv & Ha).
      apply filter_In. rewrite Hv. split; [|exact Ha]. apply in_seq. assert (nth_error vs (N.to_nat i) <> None) as Hn by congruence.
      apply nth_error_Some in Hn. lia.
    + apply NoDup_incl_length; [apply NoDup_filter, seq_NoDup|]. intros k Hk. apply filter_In in Hk as [_ Hk].
      apply in_map_iff. exists (N.of_nat k). split; [lia|]. apply B. rewrite Nat2N.id.
      destruct (nth_error vs k) as [v|]; [|discriminate]. eauto.
  - apply Forall_forall. intros v Hv. apply (in_map fst), B in Hv as (w & Hw & _).
    assert (nth_error vs (N.to_nat (fst v)) <> None) as Hn by congruence. apply nth_error_Some in Hn. lia.
Qed.
Lemma active_set_incl l av : active_set l av -> incl av l.
Proof. intros [_ H] [i v] Hi. apply H, find_some in Hi as [Hi _]. now apply in_rev. Qed.
Lemma active_set_sorted l av : StronglySorted N.lt (map fst l) -> active_set l av -> av = l.
Proof.
  intros S A. apply sorted_set_unique; [apply A|exact S|]. intros x. split; [apply (active_set_incl _ _ A)|].
  destruct x as [i v]. intros Hi. apply A. destruct (find (fun x => fst x =? i) (rev l)) as [[j w]|] eqn:Ef.
  - apply find_some in Ef as [Ef Ej]. cbn [fst] in Ej. apply N.eqb_eq in Ej. subst j. apply in_rev in Ef. f_equal. f_equal.
    apply bm_sorted_keys in S. apply (bm_in_get l) in Ef, Hi; auto. congruence.
  - apply find_none with (x := (i, v)) in Ef; [|now apply in_rev in Hi]. cbn [fst] in Ef. now rewrite N.eqb_refl in Ef.
Qed.
Lemma host_keys_match cs pkd states headers trusted vs cst atts active :
  (forall st' i v v', states (start_slot cs (epoch trusted)) = Ok st' ->
    nth_error vs i = Some v -> nth_error (st_validators (hs_state st')) i = Some v' -> v_pubkey v = v_pubkey v') ->
  rd_active_validators (host_reader cs pkd states headers cst atts) (epoch trusted) = Ok active ->
  keys_match pkd vs active.
Proof.
  intros Sc T2 i v vi Hv Hi. cbn [host_reader rd_active_validators] in T2. apply bind_ok in T2 as (st' & T2 & T3).
  unfold reader_state in T2. apply map_err_ok in T2. apply host_voters in T3 as [S V]. specialize (V i).
  apply (bm_in_get active) in Hi; [|now apply bm_sorted_keys].
  destruct (nth_error (st_validators (hs_state st')) (N.to_nat i)) as [v'|] eqn:Ev'; [|congruence].
  destruct (_ && _); [|congruence]. destruct V as (vi' & V1 & V2 & _). rewrite Hi in V1. injection V1 as <-.
  rewrite (Sc _ _ _ _ T2 Hv Ev'). exact V2.
Qed.
Lemma group_targets atts gs e : groups atts gs -> In e (target_epochs atts) -> exists g, In g gs /\ epoch (target (fst g)) = e.
Proof.
  intros E3 He. unfold target_epochs in He. apply in_map_iff in He as (a & <- & Ha). destruct E3 as (H3 & Hgo & _).
  rewrite <- H3 in Ha. apply in_concat in Ha as (x & Hx & Ha). apply in_map_iff in Hx as (g & <- & Hg). exists g. split; [exact Hg|].
  rewrite Forall_forall in Hgo. destruct (Hgo g Hg) as [_ Hl]. rewrite <- (Hl a Ha). reflexivity.
Qed.
Lemma preflight_targets X cfg R post slot cst : verify X cfg R = Ok (post, slot) -> rd_consensus_state R = Ok cst ->
  forall atts e, rd_attestations R = Ok atts -> In e (target_epochs atts) -> epoch (finalized cst) < e.
Proof.
  intros Ev Hc atts e Ha He. apply verify_sound in Ev as (st0 & atts0 & gs & E1 & E2 & E3 & E4 & _).
  rewrite Hc in E1. injection E1 as <-. rewrite Ha in E2. injection E2 as <-.
  destruct (group_targets _ _ _ E3 He) as (g & Hg & <-). eapply accepted_targets; [exact E4|]. now apply in_map.
Qed.
(** ** The replay *)
Theorem guest_repeats X bits cs pkd states headers trusted st cst atts post slot gi r cfg :
  sound_data X cs pkd headers trusted st [root (finalized post)] ->
  sane_spec X cs -> sane_spec (on_platform X bits) cs -> shuffle_permutes X ->
  registry_fits X cs (st_validators (hs_state st)) (target_epochs atts) ->
  registry_fits (on_platform X bits) cs (st_validators (hs_state st)) (target_epochs atts) ->
  far_future_epoch cs = 2 ^ 64 - 1 -> 1 <= epoch trusted ->
  epoch (current_justified cst) + 1 + max_seed_lookahead cs < 2 ^ 64 ->
  (forall e, In e (target_epochs atts) -> u64 e) ->
  checkpoint_state X cs states trusted = Ok st -> finalized cst = trusted ->
  steady_chain cs states trusted st atts ->
  verify X cfg (preflight_reader trusted (host_reader cs pkd states headers cst atts)) = Ok (post, slot) ->
  to_input X cs pkd states headers trusted (host_reader cs pkd states headers cst atts) (recorded_reads X cs atts post) = Ok gi ->
  into_reader (on_platform X bits) cs gi = Ok r ->
  verify (on_platform X bits) cfg (guest_reader r) = Ok (post, slot).
Proof.
  intros D Sane Sane' Hp Fits Fits' Hff Ht Hc Hu Ec Ef Sc Ev Ei Er.
  set (R := host_reader cs pkd states headers cst atts) in *.
  pose proof (to_input_reads X cs pkd states headers trusted R _ gi (sd_hash _ _ _ _ _ _ _ D) (sd_keys _ _ _ _ _ _ _ D) (sd_decodes _ _ _ _ _ _ _ D) Ei)
    as (st1 & active & cst1 & patches & T1 & _ & T2 & _ & T3 & _). clear st1 T1 cst1 T3 patches.
  assert (Hk : keys_match pkd (st_validators (hs_state st)) active).
  { eapply host_keys_match; [|exact T2]. intros st' i v v'. apply (sc_keys _ _ _ _ _ Sc). }
  destruct (host_guest X bits cs pkd states headers trusted st R post gi cst active atts D Ec eq_refl Ef eq_refl T2 Hk Hc Sane Hff Ht Ei)
    as (vals & r' & G1 & G2 & G3).
  rewrite Er in G2. symmetry in G2. apply bind_ok in G2 as ([] & G2 & G4). injection G4 as ->. specialize (G3 G2). clear G1 G2.
  destruct G3 as [A1 A2 A3 A4 A5 A6 A7 A8].
  pose proof (verify_sound _ _ _ _ _ Ev) as (st0 & atts0 & gs & E1 & E2 & E3 & E4 & E5 & E6).
  cbn [preflight_reader R host_reader rd_consensus_state rd_attestations rd_chain_spec rd_slot_for_block] in E1, E2, E5, E6.
  injection E1 as <-. injection E2 as <-.
  pose proof (fun e => group_targets atts gs e E3) as Tg.
  rewrite <- verify_voters. rewrite <- verify_voters in Ev.
  eapply (verify_platform X bits cfg (voters (preflight_reader trusted R)) (voters (guest_reader r)) atts); cbn [voters rd_chain_spec rd_genesis_validators_root rd_consensus_state rd_attestations rd_slot_for_block]; auto.
  - rewrite A4. cbn [preflight_reader R host_reader rd_genesis_validators_root]. rewrite Ef. unfold reader_state.
    assert (S : exists s0, states (start_slot cs (epoch trusted)) = Ok s0).
    { unfold checkpoint_state, state_at_checkpoint, state_at_epoch_boundary, state_at_epoch in Ec. apply bind_ok in Ec as (s1 & Ec & _).
      apply bind_ok in Ec as (s0 & Ec & _). now exists s0. }
    destruct S as (s0 & S). rewrite S. cbn [map_err bind]. now rewrite (sc_genesis _ _ _ _ _ Sc _ _ S).
  - intros e He. split; [now apply Hu|]. destruct (Tg e He) as (g & Hg & <-). set (e := epoch (target (fst g))) in *.
    rewrite Forall_forall in E5. destruct (E5 g Hg) as (_ & av & P & f & gvr & avl & sets & L1 & _ & L3 & _).
    cbn [preflight_reader R host_reader rd_fork rd_active_validators] in L1, L3.
    apply bind_ok in L3 as ([] & L3 & L4). apply bind_ok in L4 as (st' & L4 & L5). rewrite L4 in L1. cbn [bind] in L1.
    unfold reader_state in L4. apply map_err_ok in L4. fold e in L1, L3, L4, L5. pose proof L5 as V. apply host_voters in V.
    destruct (sc_epochs _ _ _ _ _ Sc e He) as [B1 B2]. apply (in_map fst), (accepted_targets _ _ _ _ E4) in Hg. fold e in Hg. rewrite Ef in Hg.
    destruct (A6 e) as (lg & Q1 & Q2); [lia|exact B2|].
    pose proof (voters_unique _ _ _ _ _ _ V Q2 (fun i => sc_voters _ _ _ _ _ Sc e st' i He L4)) as U.
    assert (Ha : rd_active_validators (preflight_reader trusted R) e = Ok avl).
    { cbn [preflight_reader R host_reader rd_active_validators]. rewrite L3. cbn [bind]. unfold reader_state. rewrite L4. exact L5. }
    split.
    + constructor.
      * cbn [voters rd_fork]. rewrite A5. cbn [preflight_reader R host_reader rd_fork]. unfold reader_state. rewrite L4. cbn [map_err bind].
        now rewrite (sc_fork _ _ _ _ _ Sc e st' He L4).
      * change (map_ok (map on_snd) (rd_active_validators (preflight_reader trusted R) e) = map_ok (map on_snd) (rd_active_validators (guest_reader r) e)).
        rewrite Ha, Q1. cbn [map_ok]. now rewrite U.
      * cbn [voters rd_randao_mix rd_chain_spec preflight_reader R host_reader].
        destruct (A7 e He) as (st2 & mix & M1 & M2 & M3). rewrite M3. rewrite L4 in M1. injection M1 as <-.
        unfold reader_state. rewrite L4. cbn [map_err bind]. rewrite M2. reflexivity.
    + intros avl' av' Hav Hact. change (map_ok (map on_snd) (rd_active_validators (preflight_reader trusted R) e) = Ok avl') in Hav.
      rewrite Ha in Hav. cbn [map_ok] in Hav. injection Hav as <-.
      destruct (voters_small _ _ _ _ Q2) as [W1 W2].
      assert (av' = map on_snd avl) as ->.
      { apply active_set_sorted; [|exact Hact]. rewrite map_map. apply V. }
      rewrite U, map_length, W1. destruct Fits as [F1 F2], Fits' as [F1' F2']. cbn [on_platform usize_bits] in F1'. cbv zeta.
      split. { apply Forall_forall. intros x Hx. apply in_map_iff in Hx as (y & <- & Hy). rewrite Forall_forall in W2. specialize (W2 y Hy).
        cbn [on_snd fst]. lia. }
      cbn [voters rd_chain_spec preflight_reader R host_reader]. split; [apply F2|apply F2']; exact He.
  - destruct A8 as (h & H1 & ->). rewrite H1 in E6. cbn [map_err bind ok_or] in E6. exact E6.
Qed.
Lemma prepare_input_inv X cs pkd states headers blocks collect cfg fe gi pre post slot :
  (forall c cst atts, collect c = Ok (cst, atts) -> finalized cst = c) ->
  prepare_input X cs pkd states headers blocks collect cfg fe = Ok (gi, pre, post, slot) ->
  gi_consensus_state gi = pre /\ epoch (finalized pre) = fe /\
  let R := host_reader cs pkd states headers pre (gi_attestations gi) in
  verify X cfg (preflight_reader (finalized pre) R) = Ok (post, slot) /\
  to_input X cs pkd states headers (finalized pre) R (recorded_reads X cs (gi_attestations gi) post) = Ok gi /\
  exists blk, root (finalized pre) = tree_root X (header_tree (sha256 X) blk).
Proof.
  intros Hco E. unfold prepare_input in E. apply bind_ok in E as (st & _ & E). apply bind_ok in E as (o & _ & E).
  apply bind_ok in E as (blk & _ & E). apply bind_ok in E as (u & _ & E). set (trusted := mkCheckpoint _ _) in E.
  apply bind_ok in E as ([cst atts] & E1 & E). apply bind_ok in E as ([post' slot'] & E2 & E). apply bind_ok in E as (gi' & E3 & E).
  injection E as -> <- -> ->. apply map_err_ok in E1, E2. apply Hco in E1.
  assert (G : gi_consensus_state gi = cst /\ gi_attestations gi = atts).
  { unfold to_input in E3. repeat (let x := fresh "x" in let H := fresh "H" in apply bind_ok in E3 as (x & H & E3)).
    repeat match goal with H : (match ?p with pair _ _ => _ end) = Ok _ |- _ => destruct p end.
    repeat (let x := fresh "x" in let H := fresh "H" in apply bind_ok in E3 as (x & H & E3)).
    injection E3 as <-. cbn [gi_consensus_state gi_attestations].
    repeat match goal with H : map_err _ _ = Ok _ |- _ => apply map_err_ok in H end.
    repeat match goal with
    | H : rd_consensus_state _ = Ok _ |- _ => cbn [host_reader rd_consensus_state] in H; injection H as <-
    | H : rd_attestations _ = Ok _ |- _ => cbn [host_reader rd_attestations] in H; injection H as <- end. auto. }
  destruct G as [-> ->]. rewrite E1. split; [reflexivity|]. split; [reflexivity|]. cbv zeta. split; [exact E2|]. split; [exact E3|].
  exists blk. reflexivity.
Qed.
